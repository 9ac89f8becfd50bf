(* The rows of the compressed transition table as they stand in memory. *)
From Coq Require Import List NArith ZArith.
From Verif Require DfaModel TabtextModel.
Import DfaModel(crow, c_map, c_def).
Import TabtextModel.

(* dfasyn/n2d.h:104, 133: map and defstate are int, -1 for none *)
Definition num (d : option N) : Z := match d with Some n => Z.of_N n | None => (-1)%Z end.
Definition row_of (r : crow) : trow := TRow (map num (c_map r)) (num (c_def r)).
