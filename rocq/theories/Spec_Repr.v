(* Specification vocabulary for C109: what the texts of notes, chords and keys say. *)
From Coq Require Import QArith String Ascii.
From Verif Require Import PyBase Model_Types Model_Strings Model_Dict Spec_Dict.
From Coq Require Import List.
Import ListNotations.
Close Scope Q_scope.
Open Scope Z_scope.

(* What a field holds. *)
Inductive kind := APitch | ANumber | APosition | AMode | AType.
(* The fields that str() shows. *)
Definition shown (c : class) : list (pystr * kind) :=
  match c with
  | CNote => [(L"pitch_class", APitch); (L"octave", ANumber); (L"onset", APosition); (L"offset", APosition)]
  | CChord => [(L"root", APitch); (L"chord_type", AType); (L"inversion", ANumber); (L"bass", APitch);
               (L"onset", APosition); (L"offset", APosition)]
  | CKey => [(L"relative_tonic", APitch); (L"relative_mode", AMode)]
  end.
(* A value of that kind. *)
Definition of_kind (k : kind) (v : pyval) : Prop :=
  match k with
  | APitch | ANumber => exists z, v = VInt z
  | APosition => exists m q, v = VPos m q
  | AMode => exists m, v = VMode m
  | AType => exists t, v = VType t
  end.
(* An object of class c whose pitches are of type pt and whose shown fields hold what they should. *)
Definition proper (c : class) (pt : pitch_type) (o : obj) : Prop :=
  built c o /\ has o (type_of c) (VPitchType pt) /\
  forall f k, In (f, k) (shown c) -> exists v, has o f v /\ of_kind k v.

(* The same pitch: tonal pitch classes are numbers, MIDI pitches count modulo the octave. *)
Definition same_pitch (pt : pitch_type) (v w : pyval) : Prop :=
  exists x y, v = VInt x /\ w = VInt y /\ match pt with TPC => x = y | MIDI => x mod 12 = y mod 12 end.
(* Two objects look the same: they agree in the shown fields. *)
Definition look_alike (c : class) (pt : pitch_type) (o p : obj) : Prop :=
  forall f k v w, In (f, k) (shown c) -> has o f v -> has p f w ->
    match k with APitch => same_pitch pt v w | _ => same_value v w end.

(* No field holds a text, except that the suspension may; the text None stands for no suspension. *)
Definition texts_apart (o : obj) : Prop :=
  forall f v, has o f v ->
    if str_eqb f (L"suspension") then v = VNone \/ exists s, v = VText s /\ s <> L"None"
    else forall s, v <> VText s.
