(* C86: texts with comments, and what is left of them. *)
From Coq Require Import Ascii String List.
Import ListNotations.
Open Scope string_scope.
Open Scope list_scope.

Definition begins (l s : string) : Prop := exists r, s = (l ++ r)%string.
(* what stands inside a comment: letters and comments *)
Inductive inside := done | letter (c : ascii) (b : inside) | nested (n b : inside).
Fixpoint inner (b : inside) : string :=
  match b with
  | done => ""
  | letter c b => String c (inner b)
  | nested n b => ("/*" ++ inner n ++ "*/" ++ inner b)%string
  end.
(* letters are read from the left: none begins an opening or closing sign; [t] comes after *)
Fixpoint proper_inside (b : inside) (t : string) : Prop :=
  match b with
  | done => True
  | letter c b => ~ begins "/*" (String c (inner b ++ t)) /\ ~ begins "*/" (String c (inner b ++ t)) /\ proper_inside b t
  | nested n b => proper_inside n ("*/" ++ inner b ++ t)%string /\ proper_inside b t
  end.
(* the comments that are to stay: error, and ET with the name of a terminator *)
Definition name_letter (c : ascii) : Prop := In c (list_ascii_of_string "ABCDEFGHIJKLMNOPQRSTUVWXYZh").
Definition stays (s : string) : Prop :=
  s = "/* error */" \/
  exists n, n <> "" /\ Forall name_letter (list_ascii_of_string n) /\ s = ("/* ET " ++ n ++ " */")%string.
Inductive part := plain (c : ascii) | comment (b : inside) | marked (s : string).
Definition part_text (p : part) : string :=
  match p with plain c => String c "" | comment b => ("/*" ++ inner b ++ "*/")%string | marked s => s end.
Definition whole (l : list part) : string := String.concat "" (map part_text l).
Definition kept (p : part) : string := match p with plain c => String c "" | comment _ => "" | marked s => s end.
Definition left_over (l : list part) : string := String.concat "" (map kept l).
(* [t] comes after *)
Fixpoint proper (l : list part) (t : string) : Prop :=
  match l with
  | [] => True
  | plain c :: l => ~ begins "/*" (String c (whole l ++ t)) /\ proper l t
  | comment b :: l => (forall m, stays m -> ~ begins m ("/*" ++ inner b ++ "*/" ++ whole l ++ t)) /\
      proper_inside b ("*/" ++ whole l ++ t) /\ proper l t
  | marked s :: l => stays s /\ proper l t
  end.
(* a comment that is never closed, after its opening sign *)
Inductive unclosed : string -> Prop :=
| unclosed_end : unclosed ""
| unclosed_letter : forall c t, ~ begins "/*" (String c t) -> ~ begins "*/" (String c t) -> unclosed t -> unclosed (String c t)
| unclosed_nested : forall b t, proper_inside b ("*/" ++ t) -> unclosed t -> unclosed ("/*" ++ inner b ++ "*/" ++ t)
| unclosed_open : forall t, unclosed t -> unclosed ("/*" ++ t).
(* what comes after the parts: nothing, or a comment without end *)
Definition ending (t : string) : Prop :=
  t = "" \/ exists u, t = ("/*" ++ u)%string /\ unclosed u /\ forall m, stays m -> ~ begins m t.
