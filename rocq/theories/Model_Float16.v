(* Half precision.  pad_array (data/datasets.py:1175) and h5_to_dataset (datasets.py:1124, 1133) store
   the numbers of a dataset, class numbers among them, as np.float16.

   Simplification: only whole numbers are stored here (fractions, which note.py:259 and 302 store too, are
   not modelled); rounding is the default of IEEE 754, to the nearest, ties to even. *)
From Verif Require Export Model_Dataset.
Open Scope Z_scope.

(* np.float16(z) of an integer, datasets.py:1124, 1133, 1175: eleven binary digits are kept; None stands
   for an infinity *)
Definition float16 (z : Z) : option Z :=
  let a := Z.abs z in
  if a <? 2048 then Some z
  else
    let u := 2 ^ (Z.log2 a - 10) in
    let q := a / u in
    let r := a mod u in
    let m := if 2 * r <? u then q
             else if u <? 2 * r then q + 1
             else if Z.even q then q else q + 1 in
    if 65504 <? m * u then None else Some (Z.sgn z * (m * u)).
(* the conversion as an argument for Model_Dataset, which has no infinities: they become -1 *)
Definition to_float16 (z : Z) : Z := match float16 z with Some x => x | None => -1 end.
