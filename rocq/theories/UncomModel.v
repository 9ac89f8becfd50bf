(* uncom.l: the program that takes the comments out of the grammar. *)
From Coq Require Import Ascii String List Arith Bool.
From Verif Require Import FlexModel.
Open Scope string_scope.

(* uncom.l:29-33: the text begins with these letters *)
Fixpoint starts (l s : string) : bool :=
  match l, s with
  | "", _ => true
  | String a l, String c s => Ascii.eqb a c && starts l s
  | _, "" => false
  end.
(* uncom.l:31 [A-Zh] *)
Definition mark_letter (c : ascii) : bool :=
  let n := nat_of_ascii c in (((65 <=? n) && (n <=? 90)) || (n =? 104))%nat.
(* uncom.l:30-31: the length of a comment that is left in *)
Definition mark (s : string) : option nat :=
  if starts "/* error */" s then Some 11
  else if starts "/* ET " s then
    let r := after 6 s in
    let n := span mark_letter r in
    if (0 <? n)%nat && starts " */" (after n r) then Some (6 + n + 3) else None
  else None.
(* uncom.l:29-37 yylex; depth 0 is INITIAL, the rest COMMENT with that value of depth (an
   int: that it could overflow is left out).  flex takes the longest match: a comment that is
   left in before the two letters of any other, and these before a single one *)
Fixpoint uncom_scan (f : nat) (depth : nat) (s : string) : option string :=
  match f with
  | O => None
  | S f =>
      match s with
      | "" => Some ""
      | String c r =>
          match depth with
          | O =>
              match mark s with
              | Some n => option_map (append (substring 0 n s)) (uncom_scan f 0 (after n s))
              | None => if starts "/*" s then uncom_scan f 1 (after 2 s)
                        else option_map (String c) (uncom_scan f 0 r)
              end
          | S d =>
              if starts "/*" s then uncom_scan f (S depth) (after 2 s)
              else if starts "*/" s then uncom_scan f d (after 2 s)
              else uncom_scan f depth r
          end
      end
  end.
(* uncom.l:41-44 main *)
Definition uncom (s : string) : option string := uncom_scan (S (String.length s)) 0 s.
