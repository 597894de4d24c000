(* The Python standard library module heapq (CPython Lib/heapq.py, functions heappush,
   heappop, heappushpop, _siftdown, _siftup), used by
   harmonic_inference/utils/beam_search_utils.py:3,941,947,1048,1072,1081,1092.
   The C implementation used at run time follows the same algorithm.  [lt] is `<` on the
   elements (State.__lt__, beam_search_utils.py:882-883). *)
From Verif Require Export PyBase.
Open Scope nat_scope.

Section Heap.
Context {A : Type} (lt : A -> A -> bool).

(* heap[i] for a non-negative position *)
Definition hget (h : list A) (i : nat) : res A :=
  match nth_error h i with Some a => Ok a | None => Raise IndexError end.

(* heapq._siftdown(heap, startpos, pos); newitem is heap[pos].  The loop runs on fuel. *)
Fixpoint siftdown_loop (fuel : nat) (h : list A) (start pos : nat) (newitem : A)
  : res (list A) :=
  match fuel with
  | O => Raise OutOfFuel
  | S f =>
      if start <? pos then
        let parentpos := (pos - 1) / 2 in
        let! parent := hget h parentpos in
        if lt newitem parent then siftdown_loop f (upd_nat h pos parent) start parentpos newitem
        else Ok (upd_nat h pos newitem)
      else Ok (upd_nat h pos newitem)
  end.
(* heapq._siftdown *)
Definition siftdown (h : list A) (start pos : nat) : res (list A) :=
  let! newitem := hget h pos in
  siftdown_loop (S pos) h start pos newitem.

(* heapq._siftup(heap, pos): move the smaller child up until a leaf is reached, then put
   newitem there and sift it down (towards startpos). *)
Fixpoint siftup_loop (fuel : nat) (h : list A) (start pos : nat) (newitem : A)
  : res (list A) :=
  match fuel with
  | O => Raise OutOfFuel
  | S f =>
      let childpos := 2 * pos + 1 in
      if childpos <? length h then
        let rightpos := childpos + 1 in
        let! c := hget h childpos in
        let! childpos :=
          (if rightpos <? length h then
             let! r := hget h rightpos in
             Ok (if negb (lt c r) then rightpos else childpos)
           else Ok childpos) in
        let! child := hget h childpos in
        siftup_loop f (upd_nat h pos child) start childpos newitem
      else
        siftdown (upd_nat h pos newitem) start pos
  end.
(* heapq._siftup *)
Definition siftup (h : list A) (pos : nat) : res (list A) :=
  let! newitem := hget h pos in
  siftup_loop (S (length h)) h pos pos newitem.

(* heapq.heappush *)
Definition heappush (h : list A) (item : A) : res (list A) :=
  siftdown (h ++ [item]) 0 (length h).

(* heapq.heappop: (popped item, new heap) *)
Definition heappop (h : list A) : res (A * list A) :=
  match rev h with
  | [] => Raise IndexError
  | lastelt :: r =>
      match rev r with
      | [] => Ok (lastelt, [])
      | (returnitem :: _) as h' =>
          let! h2 := siftup (upd_nat h' 0 lastelt) 0 in
          Ok (returnitem, h2)
      end
  end.

(* heapq.heappushpop: (returned item, new heap) *)
Definition heappushpop (h : list A) (item : A) : res (A * list A) :=
  match h with
  | top :: _ =>
      if lt top item then
        let! h2 := siftup (upd_nat h 0 item) 0 in
        Ok (top, h2)
      else Ok (item, h)
  | [] => Ok (item, h)
  end.
End Heap.
