(* The choice of words and the line breaks of the random text generator (rtg/rtg.pl).
   The random numbers are arbitrary 32 bit numbers; which terminals are called, the walk
   through the grammar, is left out: any sequence of them is considered. *)
From Coq Require Import Ascii String List Bool Arith NArith.
From Verif Require Import TokData RtgData.
Import ListNotations.
Open Scope string_scope.
Open Scope list_scope.

(* rtg/rtg.pl:30-35 rnd and int(n * rnd), rtg/rtg.pl:45, 51, 192, 240.  The numbers
   y / 65536.0 / 65536.0 and n times it are exact in floating point as long as n has
   at most 21 bits, so int is the quotient *)
Definition int_rnd (n y : N) : N := (n * y / 4294967296)%N.

(* rtg/rtg.pl:42-53 pick, pickx: n is $#, the last index; 190-193, 238-241 BAI, CAhA;
   an index outside gives undef *)
Definition choose (w : way) (l : list string) (y : N) : option string :=
  match w with
  | Fixed => hd_error l
  | Short => nth_error l (N.to_nat (int_rnd (N.of_nat (List.length l) - 1) y))
  | Whole => nth_error l (N.to_nat (int_rnd (N.of_nat (List.length l)) y))
  end.

(* rtg/rtg.pl:98-111 emit, without the trace: $output and $llen *)
Definition emit (st : string * nat) (x : string) : string * nat :=
  let (output, llen) := st in
  let output := (output ++ x)%string in
  let llen := llen + String.length x in
  if (72 <? llen)%nat then ((output ++ String (ascii_of_nat 10) "")%string, 0)
  else ((output ++ " ")%string, S llen).
(* rtg/rtg.pl:112-116 clear_output, then one terminal after another *)
Definition emitted (xs : list string) : string * nat := fold_left emit xs ("", 0).
