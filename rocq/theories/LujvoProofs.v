(* The lujvo checker: is_valid_lujvo against the specification. *)
From Coq Require Import String Ascii List NArith ZArith Bool Arith Lia.
From Verif Require Import Base LujvoData LujvoModel LujvoSpec.
Import ListNotations.
Open Scope list_scope.

(* ---- letters ---- *)
Definition all_chars : list ascii := map ascii_of_nat (seq 0 256).
Lemma all_chars_in c : In c all_chars.
Proof.
  unfold all_chars. apply in_map_iff. exists (nat_of_ascii c). split; [apply ascii_nat_embedding|].
  apply in_seq. pose proof (nat_ascii_bounded c). lia.
Qed.
Lemma by_chars (P : ascii -> bool) : forallb P all_chars = true -> forall c, P c = true.
Proof. intros H c. rewrite forallb_forall in H. apply H, all_chars_in. Qed.
Ltac chars P := let H := fresh in pose proof (by_chars P) as H; vm_compute in H; specialize (H eq_refl).

Lemma cons_facts c : cons c = true ->
  is_consonant c = true /\ is_vowel c = false /\ ceq c "y" = false /\ ceq c "'" = false /\ vow c = false /\ small c = true
  /\ IC c = true /\ IV c = false /\ ceq c "+" = false.
Proof.
  pose proof (by_chars (fun c => implb (cons c) (is_consonant c && negb (is_vowel c) && negb (ceq c "y") && negb (ceq c "'")
     && negb (vow c) && small c && IC c && negb (IV c) && negb (ceq c "+"))) ltac:(vm_compute; reflexivity) c) as H.
  cbv beta in H. intros E. rewrite E in H. cbn [implb] in H.
  rewrite !andb_true_iff, !negb_true_iff in H. tauto.
Qed.
Lemma vow_facts c : vow c = true ->
  is_vowel c = true /\ is_consonant c = false /\ ceq c "y" = false /\ ceq c "'" = false /\ cons c = false /\ small c = true
  /\ IC c = false /\ IV c = true /\ ceq c "+" = false /\ ceq c "r" = false /\ ceq c "n" = false.
Proof.
  pose proof (by_chars (fun c => implb (vow c) (is_vowel c && negb (is_consonant c) && negb (ceq c "y") && negb (ceq c "'")
     && negb (cons c) && small c && negb (IC c) && IV c && negb (ceq c "+") && negb (ceq c "r") && negb (ceq c "n"))) ltac:(vm_compute; reflexivity) c) as H.
  cbv beta in H. intros E. rewrite E in H. cbn [implb] in H.
  rewrite !andb_true_iff, !negb_true_iff in H. tauto.
Qed.
Lemma small_class c : small c = true -> is_consonant c = cons c /\ is_vowel c = vow c.
Proof.
  pose proof (by_chars (fun c => implb (small c) (Bool.eqb (is_consonant c) (cons c) && Bool.eqb (is_vowel c) (vow c))) ltac:(vm_compute; reflexivity) c) as H.
  cbv beta in H. intros E. rewrite E in H. cbn [implb] in H.
  rewrite !andb_true_iff in H. destruct H as [H1 H2]. apply Bool.eqb_prop in H1, H2. auto.
Qed.

Definition consonants : list ascii := text "bcdfgjklmnprstvxz".
Lemma cons_in c : cons c = true -> In c consonants.
Proof.
  unfold cons, among. rewrite existsb_exists. intros [x [H E]]. apply Ascii.eqb_eq in E. subst x. exact H.
Qed.
Lemma by_pairs (P : ascii -> ascii -> bool) : forallb (fun a => forallb (P a) consonants) consonants = true ->
  forall a b, cons a = true -> cons b = true -> P a b = true.
Proof.
  intros H a b Ha Hb. rewrite forallb_forall in H. specialize (H a (cons_in a Ha)).
  rewrite forallb_forall in H. exact (H b (cons_in b Hb)).
Qed.
Lemma pair_facts a b : cons a = true -> cons b = true ->
  is_pairok a b = permissible a b /\ is_initialpairok a b = initial_pair a b.
Proof.
  intros Ha Hb.
  pose proof (by_pairs (fun a b => Bool.eqb (is_pairok a b) (permissible a b) && Bool.eqb (is_initialpairok a b) (initial_pair a b))
                ltac:(vm_compute; reflexivity) a b Ha Hb) as H.
  cbv beta in H. rewrite andb_true_iff in H. destruct H as [H1 H2]. apply Bool.eqb_prop in H1, H2. auto.
Qed.
Lemma pair_in_or l a b : pair_in l a b = true -> exists s, In s l /\ text s = [a; b].
Proof.
  unfold pair_in. rewrite existsb_exists. intros [s [H E]]. exists s. split; auto.
  destruct (list_eq_dec _ _ _); [auto | discriminate].
Qed.
Lemma initial_facts a b : initial_pair a b = true ->
  cons a = true /\ cons b = true /\ permissible a b = true /\ ceq a "r" = false /\ ceq a "n" = false.
Proof.
  intros H. apply pair_in_or in H. destruct H as [s [H E]].
  assert (K : (fun s => match text s with [a; b] => cons a && cons b && permissible a b && negb (ceq a "r") && negb (ceq a "n") | _ => true end) s = true).
  { revert s H E. assert (K : forallb (fun s => match text s with [a; b] => cons a && cons b && permissible a b && negb (ceq a "r") && negb (ceq a "n") | _ => true end) initials = true) by (vm_compute; reflexivity).
    rewrite forallb_forall in K. intros s H E. exact (K s H). }
  cbv beta in K. rewrite E in K. rewrite !andb_true_iff, !negb_true_iff in K. tauto.
Qed.
Lemma permissible_facts a b : permissible a b = true -> cons a = true /\ cons b = true.
Proof. unfold permissible. rewrite !andb_true_iff. tauto. Qed.
Lemma triple_eq a b c s : triple_is a b c s = (if list_eq_dec ascii_dec (text s) [a; b; c] then true else false).
Proof.
  unfold triple_is, w, text. destruct (list_ascii_of_string s) as [|x [|y [|z [|]]]];
    try (destruct (list_eq_dec _ _ _) as [E|]; [discriminate E | reflexivity]).
  unfold ceq. destruct (list_eq_dec _ _ _) as [E|N].
  - inversion E. now rewrite !Ascii.eqb_refl.
  - destruct (Ascii.eqb_spec a x), (Ascii.eqb_spec b y), (Ascii.eqb_spec c z); subst; auto. now destruct N.
Qed.
Lemma triple_facts a b c : is_bad_triple a b c = bad_triple a b c.
Proof. unfold is_bad_triple, bad_triple. rewrite !triple_eq. cbn [existsb]. now rewrite orb_false_r, !orb_assoc. Qed.
Lemma y_not : cons "y" = false /\ vow "y" = false /\ is_consonant "y" = false /\ is_vowel "y" = false.
Proof. vm_compute. auto. Qed.
Lemma apos_not : cons "'" = false /\ vow "'" = false /\ is_consonant "'" = false /\ is_vowel "'" = false
  /\ ceq "'" "y" = false /\ IC "'" = false /\ IV "'" = false.
Proof. vm_compute. auto 10. Qed.

Global Opaque cons vow small permissible initial_pair bad_triple is_consonant is_vowel is_pairok is_initialpairok is_bad_triple.
(* knowledge of the letters of a form, for rewriting *)
Ltac know :=
  repeat match goal with
  | H : initial_pair ?a ?b = true |- _ =>
      lazymatch goal with _ : permissible a b = true |- _ => fail | _ => idtac end;
      let K := fresh in pose proof (initial_facts a b H) as K;
      destruct K as [? [? [? [? ?]]]]
  | H : permissible ?a ?b = true |- _ =>
      lazymatch goal with _ : is_pairok a b = true |- _ => fail | _ => idtac end;
      let K := fresh "K" in let L := fresh "L" in
      pose proof (permissible_facts a b H) as K; destruct K as [? ?];
      assert (L : is_pairok a b = true) by (rewrite (proj1 (pair_facts a b ltac:(assumption) ltac:(assumption))); exact H)
  end;
  repeat match goal with
  | H : initial_pair ?a ?b = true |- _ =>
      lazymatch goal with _ : is_initialpairok a b = true |- _ => fail | _ => idtac end;
      let L := fresh "L" in
      assert (L : is_initialpairok a b = true) by (rewrite (proj2 (pair_facts a b ltac:(assumption) ltac:(assumption))); exact H)
  end;
  repeat match goal with
  | H : cons ?c = true |- _ =>
      lazymatch goal with _ : is_consonant c = true |- _ => fail | _ => idtac end;
      let K := fresh in pose proof (cons_facts c H) as K;
      destruct K as [? [? [? [? [? [? [? [? ?]]]]]]]]
  | H : vow ?c = true |- _ =>
      lazymatch goal with _ : is_vowel c = true |- _ => fail | _ => idtac end;
      let K := fresh in pose proof (vow_facts c H) as K;
      destruct K as [? [? [? [? [? [? [? [? [? [? ?]]]]]]]]]]
  end.
Ltac red_at := cbn [at_ nth List.length Nat.leb Nat.eqb long skipn firstn app andb orb negb letter fst snd] in *.
Ltac use :=
  repeat match goal with
  | H : ?f ?a = true |- context [?f ?a] => rewrite H
  | H : ?f ?a = false |- context [?f ?a] => rewrite H
  | H : ?f ?a ?b = true |- context [?f ?a ?b] => rewrite H
  | H : ?f ?a ?b = false |- context [?f ?a ?b] => rewrite H
  end.

(* ---- the beginnings of joined parts ---- *)
Lemma form_long k p : form k p -> exists a b c r, p = a :: b :: c :: r /\ cons a = true /\ (cons b = true \/ vow b = true).
Proof. intros F. destruct F; know; eauto 12. Qed.
Lemma lax_form l : parts_lax l -> exists k p l', l = (k, p) :: l' /\
  exists a b c r, p = a :: b :: c :: r /\ cons a = true /\ (cons b = true \/ vow b = true).
Proof.
  intros P. destruct P as [k p _ F | | k p l _ F _].
  - exists k, p, []. split; auto. now apply form_long with k.
  - know. do 3 eexists. split; [reflexivity|]. eauto 12.
  - exists k, p, l. split; auto. now apply form_long with k.
Qed.
Lemma parts_parts_lax l : parts l -> parts_lax l.
Proof. induction 1; econstructor; eauto. Qed.
Lemma joined_cons x y l : joined (x :: y :: l) = snd x ++ y_if (y_between x y) ++ joined (y :: l).
Proof. reflexivity. Qed.
Lemma joined_head k p l : exists r, joined ((k, p) :: l) = p ++ r.
Proof. destruct l; [exists []; cbn; now rewrite app_nil_r | eexists; reflexivity]. Qed.
Lemma lax_head l : parts_lax l -> exists a b c r, joined l = a :: b :: c :: r /\ cons a = true /\ (cons b = true \/ vow b = true)
  /\ exists k p l', l = (k, p) :: l' /\ letter p 0 = a /\ letter p 1 = b.
Proof.
  intros P. destruct (lax_form l P) as [k [p [l' [-> [a [b [c [r [-> [Ha Hb]]]]]]]]]].
  destruct (joined_head k (a :: b :: c :: r) l') as [r' E]. rewrite E.
  exists a, b, c, (r ++ r'). repeat split; auto. exists k, (a :: b :: c :: r), l'. auto.
Qed.

(* ---- the checker accepts ---- *)
Definition last_kind (l : list part) : kind := fst (last l (CVC, [])).
Definition fc_after (l : list part) (fc : option bool) : option bool := match last_kind l with CCV => Some true | _ => fc end.
Lemma last_kind_cons x y l : last_kind (x :: y :: l) = last_kind (y :: l).
Proof. reflexivity. Qed.

Lemma ivl_tail_ok l : parts_lax l -> forall fuel nr sc hr fc, (0 < nr)%nat -> (List.length (joined l) < fuel)%nat ->
  ivl fuel (joined l) nr sc hr fc = ivl_end (nr + List.length l) sc hr (fc_after l fc).
Proof.
  induction 1 as [k p Hk F | a b v c u Hp Hv Hc Hu | k p l Hk F P IH]; intros fuel nr sc hr fc Hnr Hfuel;
    (destruct fuel as [|fuel]; [lia|]); assert (Enr : Nat.eqb nr 0 = false) by (apply Nat.eqb_neq; lia).
  - cbn [joined snd] in *. cbn [List.length]. replace (nr + 1)%nat with (S nr) by lia.
    destruct F; try discriminate Hk; know; cbn [ivl]; rewrite Enr; unfold is_cvccv, is_ccvcv, is_cvccy, is_ccvcy, is_cvc, is_cvv, is_cvav, is_ccv, C, V;
      red_at; use; cbn [andb negb orb]; try reflexivity;
      destruct apos_not as [? [? [? [? [? ?]]]]]; use; reflexivity.
  - cbn [joined snd] in *. cbn [List.length]. replace (nr + 1)%nat with (S nr) by lia.
    know; cbn [ivl]; rewrite Enr; unfold is_cvccv, is_ccvcv, C, V; red_at; use; cbn [andb negb orb]; reflexivity.
  - destruct (lax_head l P) as [x [y [z [r [E [Hx [Hy [k' [p' [l' [El [Lx Ly]]]]]]]]]]]].
    subst l. rewrite joined_cons in Hfuel |- *. rewrite E in IH, Hfuel |- *. cbn [snd] in Hfuel |- *.
    assert (Hf : fc_after ((k, p) :: (k', p') :: l') fc = fc_after ((k', p') :: l') fc) by reflexivity.
    rewrite Hf. replace (nr + List.length ((k, p) :: (k', p') :: l'))%nat with (S nr + List.length ((k', p') :: l'))%nat by (cbn [List.length]; lia).
    assert (Hy' : ceq y "y" = false) by (destruct Hy as [Hy|Hy]; [destruct (cons_facts _ Hy) | destruct (vow_facts _ Hy)]; tauto).
    pose proof (IH fuel (S nr) sc hr fc ltac:(lia)) as IH'. clear IH.
    destruct F as [a v b Ha Hv Hb | | | | | | |]; try discriminate Hk; know; rewrite app_length in Hfuel; cbn [List.length] in Hfuel;
      unfold y_between in Hfuel |- *; cbn [fst snd] in Hfuel |- *; rewrite ?Lx, ?Ly in Hfuel |- *; cbn [y_if app letter nth List.length] in Hfuel |- *.
    1: { destruct (pair_facts b x ltac:(assumption) ltac:(assumption)) as [Epair _].
      pose proof (triple_facts b x y) as Et.
      destruct (permissible b x) eqn:Ep; destruct (bad_triple b x y) eqn:Et'; cbn [negb orb y_if app List.length] in Hfuel |- *;
      cbn [ivl]; rewrite Enr; unfold is_cvccv, is_ccvcv, is_cvccy, is_ccvcy, is_cvc, is_cvv, is_cvav, is_ccv, C, V;
      red_at; destruct y_not as [? [? [? ?]]]; use; rewrite ?Ascii.eqb_refl; cbn [andb negb orb obind Nat.ltb Nat.leb Nat.eqb];
      try (apply IH'; lia). }
    all: cbn [ivl]; rewrite Enr; unfold is_cvccv, is_ccvcv, is_cvccy, is_ccvcy, is_cvc, is_cvv, is_cvav, is_ccv, C, V;
      red_at; destruct y_not as [? [? [? ?]]]; destruct apos_not as [? [? [? [? [? ?]]]]];
      use; rewrite ?Ascii.eqb_refl; cbn [andb negb orb List.length Nat.ltb Nat.leb Nat.eqb];
           try (apply IH'; lia).
Qed.
