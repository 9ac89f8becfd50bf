(* The lujvo checker: soundness, and the whole word. *)
From Coq Require Import String Ascii List NArith ZArith Bool Arith Lia.
From Verif Require Import Base LujvoData LujvoModel LujvoSpec LujvoProofs.
Import ListNotations.
Open Scope list_scope.

Definition smalls (t : list ascii) : Prop := Forall (fun c => small c = true) t.
Lemma smalls_cons c t : smalls (c :: t) -> small c = true /\ smalls t.
Proof. intros H. inversion H. auto. Qed.
Lemma smalls_intro c t : small c = true -> smalls t -> smalls (c :: t).
Proof. intros. now constructor. Qed.
Ltac sm := repeat first [assumption | apply smalls_intro | apply Forall_nil].
Lemma small_c c : small c = true -> is_consonant c = true -> cons c = true.
Proof. intros H. destruct (small_class c H) as [-> _]. auto. Qed.
Lemma small_v c : small c = true -> is_vowel c = true -> vow c = true.
Proof. intros H. destruct (small_class c H) as [_ ->]. auto. Qed.

Ltac nope H := cbn [List.length Nat.leb andb] in H; try (lazymatch type of H with false = true => discriminate H end).
Ltac opened t H :=
  let a := fresh "a" in let b := fresh "b" in let c := fresh "c" in let d := fresh "d" in let e := fresh "e" in
  destruct t as [|a [|b [|c [|d [|e t]]]]]; nope H.
Ltac smalled := repeat match goal with
  | K : smalls (_ :: _) |- _ => apply smalls_cons in K; destruct K as [? K]
  end.
Ltac parts_of H := red_at; rewrite ?andb_true_iff in H; repeat match goal with K : _ /\ _ |- _ => destruct K end;
  smalled; repeat match goal with
  | K : is_consonant ?c = true, S : small ?c = true |- _ => apply (small_c c S) in K
  | K : is_vowel ?c = true, S : small ?c = true |- _ => apply (small_v c S) in K
  | K : ceq ?c ?d = true |- _ => apply Ascii.eqb_eq in K; subst
  end.
Lemma inv_cvccv t : smalls t -> is_cvccv t = true -> exists a v b c u r, t = a :: v :: b :: c :: u :: r
  /\ cons a = true /\ vow v = true /\ cons b = true /\ cons c = true /\ vow u = true.
Proof. unfold is_cvccv, long, C, V. intros S H. opened t H. parts_of H. do 6 eexists. repeat split; assumption. Qed.
Lemma inv_ccvcv t : smalls t -> is_ccvcv t = true -> exists a b v c u r, t = a :: b :: v :: c :: u :: r
  /\ cons a = true /\ cons b = true /\ vow v = true /\ cons c = true /\ vow u = true.
Proof. unfold is_ccvcv, long, C, V. intros S H. opened t H. parts_of H. do 6 eexists. repeat split; assumption. Qed.
Lemma inv_cvccy t : smalls t -> is_cvccy t = true -> exists a v b c r, t = a :: v :: b :: c :: "y"%char :: r
  /\ cons a = true /\ vow v = true /\ cons b = true /\ cons c = true.
Proof. unfold is_cvccy, long, C, V. intros S H. opened t H. parts_of H. do 5 eexists. repeat split; assumption. Qed.
Lemma inv_ccvcy t : smalls t -> is_ccvcy t = true -> exists a b v c r, t = a :: b :: v :: c :: "y"%char :: r
  /\ cons a = true /\ cons b = true /\ vow v = true /\ cons c = true.
Proof. unfold is_ccvcy, long, C, V. intros S H. opened t H. parts_of H. do 5 eexists. repeat split; assumption. Qed.
Lemma inv_cvc t : smalls t -> is_cvc t = true -> exists a v b r, t = a :: v :: b :: r
  /\ cons a = true /\ vow v = true /\ cons b = true.
Proof. unfold is_cvc, long, C, V. intros S H. destruct t as [|a [|b [|c t]]]; nope H. parts_of H. do 4 eexists. repeat split; assumption. Qed.
Lemma inv_cvv t : smalls t -> is_cvv t = true -> exists a v u r, t = a :: v :: u :: r
  /\ cons a = true /\ vow v = true /\ vow u = true.
Proof. unfold is_cvv, long, C, V. intros S H. destruct t as [|a [|b [|c t]]]; nope H. parts_of H. do 4 eexists. repeat split; assumption. Qed.
Lemma inv_ccv t : smalls t -> is_ccv t = true -> exists a b u r, t = a :: b :: u :: r
  /\ cons a = true /\ cons b = true /\ vow u = true.
Proof. unfold is_ccv, long, C, V. intros S H. destruct t as [|a [|b [|c t]]]; nope H. parts_of H. do 4 eexists. repeat split; assumption. Qed.
Lemma inv_cvav t : smalls t -> is_cvav t = true -> exists a v u r, t = a :: v :: "'"%char :: u :: r
  /\ cons a = true /\ vow v = true /\ vow u = true.
Proof. unfold is_cvav, long, C, V. intros S H. destruct t as [|a [|b [|c [|d t]]]]; nope H. parts_of H. do 4 eexists. repeat split; assumption. Qed.

(* joining in front, by the letters that follow *)
Definition y_before (k : kind) (p : list ascii) (a b : ascii) : bool :=
  match k with
  | CVCC | CCVC => true
  | CVC => negb (permissible (letter p 2) a) || bad_triple (letter p 2) a b
  | _ => false
  end.
Lemma joined_more k p l a b r : parts_lax l -> joined l = a :: b :: r ->
  joined ((k, p) :: l) = p ++ y_if (y_before k p a b) ++ a :: b :: r.
Proof.
  intros P E. destruct (lax_head l P) as [a' [b' [c [r' [E' [_ [_ [k' [p' [l' [-> [La Lb]]]]]]]]]]]].
  rewrite E in E'. injection E' as <- <- _. rewrite joined_cons, E. unfold y_between, y_before. cbn [fst snd]. now rewrite La, Lb.
Qed.
Definition fc_end (k : kind) (fc : option bool) : option bool := match k with CCV => Some true | _ => fc end.
Lemma fc_after_more x l fc : l <> [] -> fc_after (x :: l) fc = fc_after l fc.
Proof. destruct l; [congruence|reflexivity]. Qed.
Lemma lax_nonempty l : parts_lax l -> l <> [].
Proof. destruct 1; discriminate. Qed.
Lemma smalls_skipn n t : smalls t -> smalls (skipn n t).
Proof. revert t. induction n; intros [|x t] H; cbn; auto. apply IHn. now inversion H. Qed.

Lemma ivl_sound fuel : forall t nr sc hr fc, (0 < nr)%nat -> smalls t -> ivl fuel t nr sc hr fc = Ok true ->
  exists l, parts_lax l /\ t = joined l /\ ivl_end (nr + List.length l) sc hr (fc_after l fc) = Ok true.
Proof.
  induction fuel as [|fuel IH]; intros t nr sc hr fc Hnr S H; [discriminate|].
  pose proof (fun t n sc hr fc K S => IH t (Datatypes.S n) sc hr fc (Nat.lt_0_succ n) S K) as IH'.
  cbn [ivl] in H. assert (Enr : Nat.eqb nr 0 = false) by (apply Nat.eqb_neq; lia). rewrite Enr in H.
  assert (Last : forall k p, parts_lax [(k, p)] -> t = p -> ivl_end (Datatypes.S nr) sc hr (fc_end k fc) = Ok true ->
    exists l, parts_lax l /\ t = joined l /\ ivl_end (nr + List.length l) sc hr (fc_after l fc) = Ok true).
  { intros k p P E K. exists [(k, p)]. split; [exact P|]. split; [exact E|]. cbn [List.length]. rewrite Nat.add_1_r. exact K. }
  assert (More : forall k p a b r, medial k = true -> form k p -> t = p ++ y_if (y_before k p a b) ++ a :: b :: r -> smalls (a :: b :: r) ->
    ivl fuel (a :: b :: r) (Datatypes.S nr) sc hr fc = Ok true ->
    exists l, parts_lax l /\ t = joined l /\ ivl_end (nr + List.length l) sc hr (fc_after l fc) = Ok true).
  { intros k p a b r Hk F E S' K. destruct (IH' _ _ _ _ _ K S') as [l [P [El Kl]]].
    exists ((k, p) :: l). split; [now constructor|]. split.
    - rewrite E. symmetry. now apply joined_more.
    - rewrite (fc_after_more _ l fc (lax_nonempty l P)). cbn [List.length]. now rewrite Nat.add_succ_r. }
  assert (Short : forall a, ivl fuel [a] (Datatypes.S nr) sc hr fc <> Ok true).
  { intros a K. destruct fuel; [discriminate|]. cbn [ivl] in K. unfold is_cvccv, is_ccvcv, is_cvccy, is_ccvcy, is_cvc, is_cvv, is_cvav, is_ccv, long in K.
    cbn [List.length Nat.eqb Nat.leb andb] in K. discriminate. }
  destruct (Nat.eqb (List.length t) 5 && is_cvccv t) eqn:B1.
  { apply andb_true_iff in B1. destruct B1 as [L B]. destruct (inv_cvccv t S B) as [a [v [b [c [u [r [-> [? [? [? [? ?]]]]]]]]]]].
    destruct r; [|discriminate L]. know. destruct (pair_facts b c ltac:(assumption) ltac:(assumption)) as [Ep _]. red_at. rewrite Ep in H.
    destruct (permissible b c) eqn:Eb; [|discriminate H]. cbn [negb] in H.
    apply (Last CVCCV [a; v; b; c; u]); auto. constructor; auto. now constructor. }
  destruct (Nat.eqb (List.length t) 5 && is_ccvcv t) eqn:B2.
  { apply andb_true_iff in B2. destruct B2 as [L B]. destruct (inv_ccvcv t S B) as [a [b [v [c [u [r [-> [? [? [? [? ?]]]]]]]]]]].
    destruct r; [|discriminate L]. know. destruct (pair_facts a b ltac:(assumption) ltac:(assumption)) as [Ep _]. red_at. rewrite Ep in H.
    destruct (permissible a b) eqn:Eb; [|discriminate H]. cbn [negb] in H.
    apply (Last CCVCV [a; b; v; c; u]); auto. now apply pl_last_pair. }
  destruct (is_cvccy t) eqn:B3.
  { destruct (inv_cvccy t S B3) as [a [v [b [c [r [-> [? [? [? ?]]]]]]]]].
    know. destruct (pair_facts b c ltac:(assumption) ltac:(assumption)) as [Ep _]. red_at. rewrite Ep in H.
    destruct r as [|x [|y r]]; red_at; [discriminate H | |].
    - destruct (permissible b c); cbn [negb] in H; [|discriminate H]. now destruct (Short x).
    - destruct (permissible b c) eqn:Eb; cbn [negb] in H; [|discriminate H]. smalled.
      apply (More CVCC [a; v; b; c] x y r); auto. { now constructor. } sm. }
  destruct (is_ccvcy t) eqn:B4.
  { destruct (inv_ccvcy t S B4) as [a [b [v [c [r [-> [? [? [? ?]]]]]]]]].
    know. destruct (pair_facts a b ltac:(assumption) ltac:(assumption)) as [_ Ep]. red_at. rewrite Ep in H.
    destruct r as [|x [|y r]]; red_at; [discriminate H | |].
    - destruct (initial_pair a b); cbn [negb] in H; [|discriminate H]. now destruct (Short x).
    - destruct (initial_pair a b) eqn:Eb; cbn [negb] in H; [|discriminate H]. smalled.
      apply (More CCVC [a; b; v; c] x y r); auto. { now constructor. } sm. }
  destruct (is_cvc t) eqn:B5.
  { destruct (inv_cvc t S B5) as [a [v [b [r [-> [? [? ?]]]]]]].
    destruct (Nat.ltb (List.length (a :: v :: b :: r)) 6) eqn:L; [discriminate H|]. apply Nat.ltb_ge in L. cbn [List.length] in L.
    destruct r as [|x [|y [|z r]]]; cbn [List.length] in L; try lia.
    cbn [at_ nth skipn] in H. smalled. cbn [obind andb orb] in H. rewrite ?orb_false_r in H.
    destruct (ceq x "y") eqn:Ex.
    - apply Ascii.eqb_eq in Ex. subst x. destruct r as [|z' r].
      + (* CVCyCC: two letters left *)
        destruct (is_pairok b y && negb (is_bad_triple b y z)); [discriminate H|].
        destruct (IH' _ _ _ _ _ H ltac:(sm)) as [l [P [El _]]].
        destruct (lax_head l P) as [? [? [? [? [E' _]]]]]. rewrite E' in El. discriminate El.
      + destruct (is_pairok b y && negb (is_bad_triple b y z)) eqn:Y; [discriminate H|].
        destruct (IH' _ _ _ _ _ H ltac:(sm)) as [l [P [El _]]].
        destruct (lax_head l P) as [y' [? [? [? [E' [Hc _]]]]]]. rewrite E' in El. injection El as <- _ _ _.
        destruct (pair_facts b y ltac:(assumption) ltac:(assumption)) as [Ep _]. rewrite Ep, triple_facts in Y.
        assert (Yb : y_before CVC [a; v; b] y z = true).
        { unfold y_before. cbn [letter nth]. destruct (permissible b y), (bad_triple b y z); cbn in Y |- *; congruence. }
        apply (More CVC [a; v; b] y z (z' :: r)); auto; [now constructor | now rewrite Yb | sm].
    - destruct (negb (is_pairok b x) || is_bad_triple b x y) eqn:Y; [discriminate H|].
      destruct (IH' _ _ _ _ _ H ltac:(sm)) as [l [P [El _]]].
      destruct (lax_head l P) as [x' [? [? [? [E' [Hc _]]]]]]. rewrite E' in El. injection El as <- _ _ _.
      destruct (pair_facts b x ltac:(assumption) ltac:(assumption)) as [Ep _]. rewrite Ep, triple_facts in Y.
      assert (Yb : y_before CVC [a; v; b] x y = false) by (unfold y_before; cbn [letter nth]; exact Y).
      apply (More CVC [a; v; b] x y (z :: r)); auto; [now constructor | now rewrite Yb | sm]. }
  destruct (is_cvv t) eqn:B6.
  { destruct (inv_cvv t S B6) as [a [v [u [r [-> [? [? ?]]]]]]]. cbn [skipn] in H. smalled.
    destruct r as [|x [|y r]].
    - apply (Last CVV [a; v; u]); auto. constructor; auto. now constructor.
    - now destruct (Short x).
    - apply (More CVV [a; v; u] x y r); auto. now constructor. }
  destruct (is_cvav t) eqn:B7.
  { destruct (inv_cvav t S B7) as [a [v [u [r [-> [? [? ?]]]]]]]. cbn [skipn] in H. smalled.
    destruct r as [|x [|y r]].
    - apply (Last CVhV [a; v; "'"%char; u]); auto. constructor; auto. now constructor.
    - now destruct (Short x).
    - apply (More CVhV [a; v; "'"%char; u] x y r); auto. now constructor. }
  destruct (is_ccv t) eqn:B8; [|discriminate H].
  destruct (inv_ccv t S B8) as [a [b [u [r [-> [? [? ?]]]]]]]. cbn [skipn at_ nth List.length] in H. smalled.
  destruct (pair_facts a b ltac:(assumption) ltac:(assumption)) as [_ Ep]. rewrite Ep in H.
  destruct (initial_pair a b) eqn:Eb; cbn [negb] in H; [|discriminate H].
  destruct r as [|x [|y r]]; cbn [List.length Nat.eqb] in H.
  - apply (Last CCV [a; b; u]); auto. constructor; auto. now constructor.
  - now destruct (Short x).
  - apply (More CCV [a; b; u] x y r); auto. now constructor.
Qed.
