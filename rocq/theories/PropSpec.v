(* Properties of nodes as a table, without lists or memory. *)
From Coq Require Import List Bool Arith ZArith.
From Verif Require Import Base PropModel.
Import ListNotations.

(* what is asked for: a property of a node *)
Definition key : Type := (nat * prop)%type.
Definition key_eq_dec (a b : key) : {a = b} + {a <> b}.
Proof. decide equality; [decide equality | apply Nat.eq_dec]. Defined.

(* the cells there are after some uses, in the order in which they were first asked for with
   create: at most one for each property of each node *)
Fixpoint cells (history : list use) (l : list key) : list key :=
  match history with
  | [] => l
  | Ask x p true :: us => cells us (if in_dec key_eq_dec (x, p) l then l else l ++ [(x, p)])
  | _ :: us => cells us l
  end.
Fixpoint place (k : key) (l : list key) : option nat :=
  match l with [] => None | k' :: l => if key_eq_dec k k' then Some 0 else option_map S (place k l) end.
(* what was last stored in field f of cell q *)
Fixpoint last_set (history : list use) (q f : nat) (before : option Z) : option Z :=
  match history with
  | [] => before
  | Set_ q' f' v :: us => last_set us q f (if Nat.eqb q' q && Nat.eqb f' f then Some v else before)
  | _ :: us => last_set us q f before
  end.
(* what a cell holds at first: nothing, except that is_tertau is 0 *)
Definition at_first (k : key) (f : nat) : option Z :=
  match snd k with glosstype => if Nat.eqb f 1 then Some 0%Z else None | _ => None end.

(* the answer to a use after a history; None: there is no such cell *)
Definition expected (history : list use) (u : use) : option answer :=
  let l := cells history [] in
  match u with
  | Ask x p create => Some (Pointer (place (x, p) (cells (history ++ [u]) [])))
  | Set_ q f v => if Nat.ltb q (length l) then Some Done else None
  | Look q f => match nth_error l q with Some k => Some (Value (last_set history q f (at_first k f))) | None => None end
  end.
(* all answers are as expected *)
Fixpoint all_expected (history us : list use) : option (list answer) :=
  match us with
  | [] => Some []
  | u :: us => match expected history u, all_expected (history ++ [u]) us with Some a, Some l => Some (a :: l) | _, _ => None end
  end.
