(* Closed sets of states of a deterministic machine over the token alphabet, and
   the machine that follows a scan together with the scans of its pieces. *)
From Coq Require Import String Ascii List NArith Bool Arith Lia FMapPositive.
From Verif Require Import Base Arr DfaModel DfaTables MorfModel MorfProofs MorfProofs2.
Import ListNotations.
Open Scope N_scope.
Open Scope list_scope.

Section Closed.
Variable A : Type.
Variable aeqb : A -> A -> bool.
Hypothesis aeqb_eq : forall x y, aeqb x y = true -> x = y.
Variable akey : A -> N.
Variable astep : A -> N -> option A.

Definition cell (m : arr (list A)) (k : N) : list A := match aget m k with Some l => l | None => [] end.
Definition put (m : arr (list A)) (x : A) : arr (list A) := aset m (akey x) (x :: cell m (akey x)).
Definition mem (m : arr (list A)) (x : A) : bool := existsb (aeqb x) (cell m (akey x)).
Definition visit_token (x : A) (st : list A * arr (list A) * list A) (t : N) : list A * arr (list A) * list A :=
  let '(todo, m, acc) := st in
  match astep x t with
  | None => st
  | Some y => if mem m y then st else (y :: todo, put m y, y :: acc)
  end.
Fixpoint explore (fuel : nat) (todo : list A) (m : arr (list A)) (acc : list A) : list A :=
  match fuel with
  | O => acc
  | S fuel =>
      match todo with
      | [] => acc
      | x :: todo => let '(todo, m, acc) := fold_left (visit_token x) (upto 21) (todo, m, acc) in explore fuel todo m acc
      end
  end.
Definition reach (x0 : A) : list A :=
  explore (N.to_nat 30000) [x0] (put (PositiveMap.empty (list A)) x0) [x0].
Definition index (R : list A) : arr (list A) := fold_left put R (PositiveMap.empty (list A)).
Definition closed_under (m : arr (list A)) (R : list A) : bool :=
  forallb (fun x => forallb (fun t => match astep x t with None => true | Some y => mem m y end) (upto 21)) R.

Lemma cell_put m x k y : In y (cell (put m x) k) -> y = x \/ In y (cell m k).
Proof.
  unfold cell, put. rewrite aget_set. destruct (N.eqb_spec k (akey x)) as [->|]; [|auto].
  intros [->|H]; [left; reflexivity|right; exact H].
Qed.
Lemma cell_fold R : forall m k y, In y (cell (fold_left put R m) k) -> In y R \/ In y (cell m k).
Proof.
  induction R as [|x R IH]; intros m k y H; [right; exact H|]. cbn [fold_left] in H.
  apply IH in H. destruct H as [H|H]; [left; right; exact H|].
  apply cell_put in H. destruct H as [->|H]; [left; left; reflexivity|right; exact H].
Qed.
Lemma mem_in R x : mem (index R) x = true -> In x R.
Proof.
  unfold mem. intro H. apply existsb_exists in H. destruct H as (y & Hy & E). apply aeqb_eq in E. subst y.
  apply cell_fold in Hy. destruct Hy as [Hy|Hy]; [exact Hy|]. unfold cell in Hy. rewrite aget_empty in Hy. destruct Hy.
Qed.
Fixpoint arun (x : A) (l : list N) : option A :=
  match l with [] => Some x | t :: l => match astep x t with None => None | Some y => arun y l end end.
Lemma closed_run R : closed_under (index R) R = true ->
  forall l x y, In x R -> Forall (fun t => t < 21) l -> arun x l = Some y -> In y R.
Proof.
  intros H l. induction l as [|t l IH]; intros x y Hx Hl E; cbn [arun] in E; [now injection E as <-|].
  inversion Hl as [|? ? Ht Hl' Q]; subst. destruct (astep x t) as [z|] eqn:Ez; [|discriminate].
  apply (IH z y); [|exact Hl'|exact E]. apply mem_in. unfold closed_under in H.
  rewrite forallb_forall in H. pose proof (by_upto _ _ (H x Hx) t Ht) as K. cbv beta in K. rewrite Ez in K. exact K.
Qed.
Lemma arun_app l1 : forall x l2, arun x (l1 ++ l2) = match arun x l1 with Some y => arun y l2 | None => None end.
Proof. induction l1 as [|t l1 IH]; intros x l2; cbn [app arun]; [reflexivity|]. destruct (astep x t); auto. Qed.
End Closed.
Arguments reach {A}. Arguments index {A}. Arguments closed_under {A}. Arguments arun {A}. Arguments closed_run {A}.

Definition oeqb (a b : option N) : bool := opt_ok a b.
Definition cm_cells := Eval vm_compute in aof (map (fun s => String.eqb (exit_of s) "R_CMAVOS") (upto n_states)).
Definition is_cm (o : option N) : bool :=
  match o with Some s => match aget cm_cells s with Some b => b | None => false end | None => false end.

(* ---- the machine for the pieces ---- *)
(* main state; states of separate scans of the text from the last, and from the
   last but one, recorded start; the flags of the scanner; whether all pieces
   before the last (two) are cmavo by themselves; one piece so far; a y-to-consonant
   step so far, and before the last start; how far the last piece is Cy(Cy)* *)
Record ast : Set := A {
  x_m : N; x_a : option N; x_b : option N;
  x_inh : bool; x_ini : bool; x_held : bool; x_frz : bool;
  x_ok : bool; x_ok2 : bool; x_one : bool; x_cy : bool; x_cyold : bool; x_q : N }.
Definition a_init : ast := A 0 None None false true false false true true false false false 0.
Definition is_frz (a : act) : bool := match a with AC_FRZ => true | _ => false end.
Definition is_sft (a : act) : bool := match a with AC_SFT => true | _ => false end.
Definition next_held (h : bool) (t : N) : bool := match tact t with AC_CLR => false | AC_SFT => true | AC_FRZ => h end.
Definition next_q (q t : N) (cyhere : bool) : N :=
  if N.eqb q 1 && N.eqb t 3 then 2
  else if N.eqb q 2 && tinh t && cyhere then 3
  else if N.eqb q 3 && N.eqb t 3 then 2 else 0.
Definition astep (x : ast) (t : N) : option ast :=
  if tset t && x_held x then None else if tinh t && negb (x_held x) then None else
  match nx (x_m x) t with
  | None => None
  | Some m =>
      let inh := x_inh x || tinh t in
      let cyhere := x_frz x && is_sft (tact t) in
      let cy := x_cy x || cyhere in
      let h := next_held (x_held x) t in
      let z := is_frz (tact t) in
      if (tset t && negb inh) || x_ini x then
        Some (A m (nx 0 t) (if x_ini x then None else nxo (x_a x) t) inh false h z
               (if x_ini x then true else x_ok x && is_cm (x_a x)) (x_ok x) (x_ini x) cy cy (if tset t then 1 else 0))
      else
        Some (A m (nxo (x_a x) t) (nxo (x_b x) t) inh false h z (x_ok x) (x_ok2 x) (x_one x) cy (x_cyold x)
               (next_q (x_q x) t cyhere))
  end.
Definition beqb (a b : bool) : bool := if a then b else negb b.
Definition ast_eqb (x y : ast) : bool :=
  if N.eqb (x_m x) (x_m y) then if oeqb (x_a x) (x_a y) then if oeqb (x_b x) (x_b y) then
  if beqb (x_inh x) (x_inh y) then if beqb (x_ini x) (x_ini y) then if beqb (x_held x) (x_held y) then
  if beqb (x_frz x) (x_frz y) then if beqb (x_ok x) (x_ok y) then if beqb (x_ok2 x) (x_ok2 y) then
  if beqb (x_one x) (x_one y) then if beqb (x_cy x) (x_cy y) then if beqb (x_cyold x) (x_cyold y) then
  N.eqb (x_q x) (x_q y) else false else false else false else false else false else false else false
  else false else false else false else false else false.
Lemma beqb_eq a b : beqb a b = true -> a = b.
Proof. now destruct a, b. Qed.
Lemma ast_eqb_eq x y : ast_eqb x y = true -> x = y.
Proof.
  destruct x, y. unfold ast_eqb. cbn [x_m x_a x_b x_inh x_ini x_held x_frz x_ok x_ok2 x_one x_cy x_cyold x_q].
  repeat match goal with |- (if ?c then _ else _) = true -> _ => let H := fresh "H" in destruct c eqn:H; [|discriminate] end.
  intro Q. repeat match goal with H : beqb _ _ = true |- _ => apply beqb_eq in H | H : oeqb _ _ = true |- _ => apply opt_ok_eq in H
    | H : N.eqb _ _ = true |- _ => apply N.eqb_eq in H end. subst. reflexivity.
Qed.
Definition bN (b : bool) : N := if b then 1 else 0.
Definition a_key (x : ast) : N :=
  x_m x + 1024 * (match x_a x with Some a => 1 + a | None => 0 end + 1024 * (match x_b x with Some b => 1 + b | None => 0 end
    + 1024 * (bN (x_inh x) + 2 * (bN (x_held x) + 2 * (bN (x_frz x) + 2 * (bN (x_ok x) + 2 * (bN (x_cy x) + 2 * bN (x_cyold x)))))))).
Definition a_reach := Eval vm_compute in reach ast_eqb a_key astep a_init.
Lemma a_closed : closed_under ast_eqb a_key astep (index a_key a_reach) a_reach = true.
Proof. vm_compute. reflexivity. Qed.

Definition dec_of (r : string) : bool := snd (category r).
Definition brivla_cat (c : wcat) : bool :=
  match c with W_GISMU | W_LUJVO | W_CULTURAL_LUJVO | W_FUIVLA3 | W_FUIVLA3_CVC | W_FUIVLA3X | W_FUIVLA3X_CVC | W_FUIVLA4 => true
  | _ => false end.
Definition a_good (x : ast) : bool :=
  let r := exit_of (x_m x) in
  let '(c, d) := category r in
  if brivla_cat c then
    if d : bool then (match x_b x with Some b => if x_one x then false else if x_ok2 x then String.eqb (exit_of b) r else false
                      | None => false end)
    else (match x_a x with Some a => if x_ok x then String.eqb (exit_of a) r else false | None => false end)
  else match c with
       | W_CMAVOS => if x_ok x then is_cm (x_a x) else false
       | W_CMAVOS_END_CY =>
           if x_ok x then if N.eqb (x_q x) 2 && negb (x_cyold x) then true else x_one x && negb (x_cy x) else false
       | _ => true
       end.
Lemma a_all_good : forallb a_good a_reach = true.
Proof. vm_compute. reflexivity. Qed.
