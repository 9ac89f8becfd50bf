(* Proofs about the merging of equivalent states (C28). *)
From Coq Require Import String List Arith NArith Bool Lia Sorted Permutation Ascii.
From Coq Require Import ZifyBool ZifyN ZifyNat.
From Verif Require Import Base Arr DfaModel DfaSpec DfaTabProofs.
Import ListNotations.
Open Scope N_scope.

(* ---- sorting ------------------------------------------------------------ *)
Section SortFacts.
  Variable A : Type.
  Variable le : A -> A -> bool.
  Hypothesis le_total : forall a b, le a b = true \/ le b a = true.
  Hypothesis le_trans : forall a b c, le a b = true -> le b c = true -> le a c = true.
  Let R a b := le a b = true.

  Lemma merge_perm : forall l1 l2, Permutation (merge le l1 l2) (l1 ++ l2).
  Proof.
    induction l1 as [|x l1 IH1]; intro l2; [destruct l2; apply Permutation_refl|].
    induction l2 as [|y l2 IH2].
    - simpl. rewrite app_nil_r. apply Permutation_refl.
    - change (merge le (x :: l1) (y :: l2)) with
        (if le x y then x :: merge le l1 (y :: l2) else y :: merge le (x :: l1) l2).
      destruct (le x y).
      + cbn [app]. apply perm_skip. apply IH1.
      + etransitivity; [apply perm_skip; exact IH2|].
        apply (Permutation_middle (x :: l1) l2 y).
  Qed.

  Lemma merge_pairs_perm : forall n ls, (List.length ls <= n)%nat ->
    Permutation (concat (merge_pairs le ls)) (concat ls).
  Proof.
    induction n; intros ls L.
    - destruct ls; [apply Permutation_refl|simpl in L; lia].
    - destruct ls as [|a [|b ls]]; try apply Permutation_refl.
      cbn [merge_pairs concat]. rewrite app_assoc.
      apply Permutation_app; [apply merge_perm|]. apply IHn. simpl in L. lia.
  Qed.

  Lemma merge_all_perm : forall fuel ls, Permutation (merge_all le fuel ls) (concat ls).
  Proof.
    induction fuel; intro ls; destruct ls as [|a [|b ls]];
      try apply Permutation_refl; try (simpl; rewrite app_nil_r; apply Permutation_refl).
    cbn [merge_all]. etransitivity; [apply IHfuel|].
    apply (merge_pairs_perm (List.length (a :: b :: ls))). lia.
  Qed.

  Lemma sort_perm l : Permutation (sort le l) l.
  Proof.
    unfold sort. etransitivity; [apply merge_all_perm|].
    replace (concat (map (fun x => [x]) l)) with l; [apply Permutation_refl|].
    induction l; simpl; congruence.
  Qed.

  Lemma merge_sorted : forall l1 l2, StronglySorted R l1 -> StronglySorted R l2 ->
    StronglySorted R (merge le l1 l2).
  Proof.
    induction l1 as [|x l1 IH1]; intros l2 S1 S2; [destruct l2; exact S2|].
    induction l2 as [|y l2 IH2]; [exact S1|].
    change (merge le (x :: l1) (y :: l2)) with
      (if le x y then x :: merge le l1 (y :: l2) else y :: merge le (x :: l1) l2).
    inversion S1 as [|? ? S1' F1]; inversion S2 as [|? ? S2' F2]; subst.
    destruct (le x y) eqn:E.
    - constructor; [apply IH1; assumption|].
      eapply Permutation_Forall; [symmetry; apply merge_perm|].
      apply Forall_app. split; [exact F1|]. constructor; [exact E|].
      eapply Forall_impl; [|exact F2]. intros z Hz. eapply le_trans; eauto.
    - constructor; [apply IH2; exact S2'|].
      eapply Permutation_Forall; [symmetry; apply merge_perm|].
      assert (Hyx : R y x) by (destruct (le_total x y); [congruence|assumption]).
      apply Forall_app. split; [|exact F2]. constructor; [exact Hyx|].
      eapply Forall_impl; [|exact F1]. intros z Hz. eapply le_trans; eauto.
  Qed.

  Lemma merge_pairs_sorted : forall n ls, (List.length ls <= n)%nat ->
    Forall (StronglySorted R) ls -> Forall (StronglySorted R) (merge_pairs le ls).
  Proof.
    induction n; intros ls L F.
    - destruct ls; [constructor|simpl in L; lia].
    - destruct ls as [|a [|b ls]]; try exact F.
      inversion F as [|? ? Fa F']; subst. inversion F' as [|? ? Fb F'']; subst.
      cbn [merge_pairs]. constructor; [apply merge_sorted; assumption|].
      apply IHn; [simpl in L; lia|exact F''].
  Qed.

  Lemma merge_pairs_length : forall n ls, (List.length ls <= n)%nat ->
    (2 * List.length (merge_pairs le ls) <= S (List.length ls))%nat.
  Proof.
    induction n; intros ls L.
    - destruct ls; [simpl; lia|simpl in L; lia].
    - destruct ls as [|a [|b ls]]; try (simpl; lia).
      cbn [merge_pairs List.length]. specialize (IHn ls). simpl in L. lia.
  Qed.

  Lemma merge_all_sorted : forall fuel ls, (List.length ls <= S fuel)%nat ->
    Forall (StronglySorted R) ls -> StronglySorted R (merge_all le fuel ls).
  Proof.
    induction fuel; intros ls L F; destruct ls as [|a [|b ls]]; try (constructor);
      try (inversion F; assumption); try (simpl in L; lia).
    cbn [merge_all]. apply IHfuel.
    - pose proof (merge_pairs_length (List.length (a :: b :: ls)) (a :: b :: ls)).
      simpl in *. lia.
    - apply (merge_pairs_sorted (List.length (a :: b :: ls))); [lia|exact F].
  Qed.

  Lemma sort_sorted l : StronglySorted R (sort le l).
  Proof.
    unfold sort. apply merge_all_sorted; [rewrite map_length; lia|].
    apply Forall_forall. intros x Hx. apply in_map_iff in Hx. destruct Hx as (y & <- & _).
    constructor; constructor.
  Qed.
End SortFacts.

Lemma sorted_before {A} (R : A -> A -> Prop) : forall l1 x l2,
  StronglySorted R (l1 ++ x :: l2) -> forall y, In y l1 -> R y x.
Proof.
  induction l1 as [|z l1 IHl]; intros x l2 S y Hy; [destruct Hy|].
  inversion S as [|? ? S' F]; subst. destruct Hy as [->|Hy].
  - rewrite Forall_forall in F. apply F. apply in_or_app. right. left. reflexivity.
  - eapply IHl; eauto.
Qed.

(* ---- comparison functions --------------------------------------------- *)

Section Cmp.
  Variable A : Type.
  Variable c : A -> A -> comparison.
  Hypothesis c_sym : forall a b, c a b = CompOpp (c b a).
  Hypothesis c_trans : forall a b d, c a b <> Gt -> c b d <> Gt -> c a d <> Gt.

  Lemma cmp_total a b : cmp_le (c a b) = true \/ cmp_le (c b a) = true.
  Proof. rewrite (c_sym b a). destruct (c a b); simpl; auto. Qed.

  Lemma cmp_trans a b d :
    cmp_le (c a b) = true -> cmp_le (c b d) = true -> cmp_le (c a d) = true.
  Proof.
    intros H1 H2. pose proof (c_trans a b d) as T.
    destruct (c a b), (c b d), (c a d); simpl in *; try discriminate; try reflexivity;
      exfalso; apply T; congruence.
  Qed.
End Cmp.

Lemma string_compare_refl s : String.compare s s = Eq.
Proof.
  induction s as [|x s IH]; simpl; [reflexivity|]. unfold Ascii.compare.
  rewrite N.compare_refl. exact IH.
Qed.

Lemma string_compare_trans : forall a b d,
  String.compare a b <> Gt -> String.compare b d <> Gt -> String.compare a d <> Gt.
Proof.
  induction a as [|x a IH]; intros [|y b] [|z d] H1 H2; simpl in *; try congruence.
  unfold Ascii.compare in *.
  destruct (N.compare_spec (N_of_ascii x) (N_of_ascii y)) as [E1|E1|E1];
  destruct (N.compare_spec (N_of_ascii y) (N_of_ascii z)) as [E2|E2|E2];
  destruct (N.compare_spec (N_of_ascii x) (N_of_ascii z)) as [E3|E3|E3]; try congruence; try lia.
  eapply IH; eauto.
Qed.

Lemma option_compare_sym {A} (c : A -> A -> comparison) :
  (forall a b, c a b = CompOpp (c b a)) ->
  forall a b, option_compare c a b = CompOpp (option_compare c b a).
Proof. intros H [a|] [b|]; simpl; auto. Qed.

Lemma initial_compare_sym a b : initial_compare a b = CompOpp (initial_compare b a).
Proof.
  unfold initial_compare. destruct (d_result a) as [x|], (d_result b) as [y|]; try reflexivity.
  rewrite (String.compare_antisym x y). destruct (String.compare y x); simpl; try reflexivity.
  apply option_compare_sym. apply String.compare_antisym.
Qed.

Lemma string_compare_lt_trans a b d :
  String.compare a b = Lt -> String.compare b d <> Gt -> String.compare a d = Lt.
Proof.
  intros H1 H2. destruct (String.compare a d) eqn:E; [|reflexivity|].
  - apply String.compare_eq_iff in E. subst d.
    rewrite String.compare_antisym, H1 in H2. simpl in H2. congruence.
  - exfalso. apply (string_compare_trans a b d); congruence.
Qed.

Lemma string_compare_lt_trans2 a b d :
  String.compare a b <> Gt -> String.compare b d = Lt -> String.compare a d = Lt.
Proof.
  intros H1 H2. destruct (String.compare a d) eqn:E; [|reflexivity|].
  - apply String.compare_eq_iff in E. subst d.
    rewrite String.compare_antisym, H2 in H1. simpl in H1. congruence.
  - exfalso. apply (string_compare_trans a b d); congruence.
Qed.

Lemma option_string_trans a b d :
  option_compare String.compare a b <> Gt -> option_compare String.compare b d <> Gt ->
  option_compare String.compare a d <> Gt.
Proof.
  destruct a as [a|], b as [b|], d as [d|]; simpl; try congruence. apply string_compare_trans.
Qed.

Lemma initial_compare_trans a b d :
  initial_compare a b <> Gt -> initial_compare b d <> Gt -> initial_compare a d <> Gt.
Proof.
  unfold initial_compare.
  destruct (d_result a) as [x|], (d_result b) as [y|], (d_result d) as [z|]; try congruence.
  destruct (String.compare x y) eqn:E1; try congruence;
  destruct (String.compare y z) eqn:E2; try congruence; intros H1 H2.
  - apply String.compare_eq_iff in E1, E2. subst. rewrite string_compare_refl.
    eapply option_string_trans; eauto.
  - apply String.compare_eq_iff in E1. subst. rewrite E2. congruence.
  - apply String.compare_eq_iff in E2. subst. rewrite E1. congruence.
  - rewrite (string_compare_lt_trans x y z); congruence.
Qed.

Lemma list_compare_sym : forall a b, list_compare a b = CompOpp (list_compare b a).
Proof.
  induction a as [|x a IH]; intros [|y b]; simpl; try reflexivity.
  rewrite (N.compare_antisym y x). destruct (y ?= x); simpl; auto.
Qed.

Lemma list_compare_eq : forall a b, list_compare a b = Eq <-> a = b.
Proof.
  induction a as [|x a IH]; intros [|y b]; simpl; try (split; congruence).
  destruct (N.compare_spec x y); try (split; [congruence|]; intro H1; injection H1; lia).
  subst. rewrite IH. split; congruence.
Qed.

Lemma list_compare_trans : forall a b d,
  list_compare a b <> Gt -> list_compare b d <> Gt -> list_compare a d <> Gt.
Proof.
  induction a as [|x a IH]; intros [|y b] [|z d]; simpl; try congruence.
  destruct (N.compare_spec x y); destruct (N.compare_spec y z);
  destruct (N.compare_spec x z); try congruence; try lia. apply IH.
Qed.

Lemma general_compare_sym a b : general_compare a b = CompOpp (general_compare b a).
Proof.
  destruct a as [[ca sa] ma], b as [[cb sb] mb]. simpl.
  rewrite (N.compare_antisym cb ca). destruct (cb ?= ca); simpl; auto.
  rewrite (N.compare_antisym sb sa). destruct (sb ?= sa); simpl; auto.
  apply list_compare_sym.
Qed.

Lemma general_compare_eq a b : general_compare a b = Eq <-> a = b.
Proof.
  destruct a as [[ca sa] ma], b as [[cb sb] mb]. simpl.
  destruct (N.compare_spec ca cb); try (split; [congruence|]; intro K; injection K; intros; subst; lia).
  destruct (N.compare_spec sa sb); try (split; [congruence|]; intro K; injection K; intros; subst; lia).
  subst. rewrite list_compare_eq. split; congruence.
Qed.

Lemma general_compare_trans a b d :
  general_compare a b <> Gt -> general_compare b d <> Gt -> general_compare a d <> Gt.
Proof.
  destruct a as [[ca sa] ma], b as [[cb sb] mb], d as [[cd sd] md]. simpl.
  destruct (N.compare_spec ca cb); destruct (N.compare_spec cb cd);
  destruct (N.compare_spec ca cd); try congruence; try lia.
  destruct (N.compare_spec sa sb); destruct (N.compare_spec sb sd);
  destruct (N.compare_spec sa sd); try congruence; try lia.
  apply list_compare_trans.
Qed.

(* ---- numbering along a sorted sequence ------------------------------------ *)

(* what the arrays say about the elements of a sequence *)
Definition written {K} (acc : arr N) (P : list (K * N * N)) : Prop :=
  forall k i c, In (k, i, c) P -> aget acc i = Some c.

Lemma written_set {K} acc (P : list (K * N * N)) k i c :
  written acc P -> ~ In i (map (fun p => snd (fst p)) P) ->
  written (aset acc i c) (P ++ [(k, i, c)]).
Proof.
  intros W Hn k' i' c' H. apply in_app_or in H. destruct H as [H|[H|[]]].
  - rewrite aget_set_other; [eapply W; eauto|]. intros ->. apply Hn.
    apply in_map_iff. exists (k', i, c'). auto.
  - injection H as <- <- <-. apply aget_set_same.
Qed.

Lemma number_initial_spec : forall seq prev last acc (P : list (dnode * N * N)),
  StronglySorted (fun a b => cmp_le (initial_compare (fst a) (fst b)) = true)
                 (map fst P ++ seq) ->
  (exists P', P = P' ++ [(prev, snd (fst (List.last P (prev, 0, 0))), last)]) ->
  NoDup (map (fun p => snd (fst p)) P ++ map snd seq) ->
  written acc P ->
  (forall p q, In p P -> In q P ->
     (initial_compare (fst (fst p)) (fst (fst q)) = Eq <-> snd p = snd q)) ->
  (forall p, In p P -> snd p <= last) ->
  (forall c, c <= last -> exists p, In p P /\ snd p = c) ->
  exists last' acc' P',
    number_initial prev last seq acc = (last', acc') /\
    map fst P' = map fst P ++ seq /\
    written acc' P' /\
    (forall p q, In p P' -> In q P' ->
     (initial_compare (fst (fst p)) (fst (fst q)) = Eq <-> snd p = snd q)) /\
    (forall p, In p P' -> snd p <= last') /\
    (forall c, c <= last' -> exists p, In p P' /\ snd p = c).
Proof.
  induction seq as [|[d i] seq IH]; intros prev last acc P Hs Hl Hn Hw Hc Hb Hsur.
  - exists last, acc, P. rewrite app_nil_r. auto 10.
  - cbn [number_initial].
    destruct Hl as (P0 & EP).
    set (pe := (prev, snd (fst (List.last P (prev, 0, 0))), last)) in *.
    assert (Hpe : In pe P) by (rewrite EP; apply in_or_app; right; left; reflexivity).
    assert (Hi : ~ In i (map (fun p => snd (fst p)) P)).
    { intro H. simpl in Hn. apply NoDup_remove_2 in Hn. apply Hn. apply in_or_app. auto. }
    assert (Hle : forall p, In p P -> initial_compare (fst (fst p)) d <> Gt).
    { intros p Hp. pose proof (sorted_before _ _ _ _ Hs (fst p)) as X. cbn [fst] in X.
      assert (Hm : In (fst p) (map fst P)) by (apply in_map; exact Hp).
      specialize (X Hm). destruct (initial_compare (fst (fst p)) d); simpl in X; congruence. }
    assert (Hple : forall p, In p P -> initial_compare (fst (fst p)) prev <> Gt).
    { intros p Hp. destruct (Hc p pe Hp Hpe) as [_ Hback].
      rewrite EP in Hp. apply in_app_or in Hp. destruct Hp as [Hp|[<-|[]]].
      - rewrite EP, map_app in Hs. cbn [map] in Hs. rewrite <- app_assoc in Hs.
        pose proof (sorted_before _ _ _ _ Hs (fst p)) as X. unfold pe in X. cbn [fst] in X.
        specialize (X (in_map _ _ _ Hp)).
        destruct (initial_compare (fst (fst p)) prev); simpl in X; congruence.
      - unfold pe in Hback |- *. cbn [fst snd] in Hback |- *. rewrite Hback by reflexivity. congruence. }
    assert (Hs' : forall c, StronglySorted (fun a b => cmp_le (initial_compare (fst a) (fst b)) = true)
         (map fst (P ++ [(d, i, c)]) ++ seq)).
    { intro c. rewrite map_app. cbn [map]. rewrite <- app_assoc. exact Hs. }
    assert (Hn' : forall c : N, NoDup (map (fun p : dnode * N * N => snd (fst p)) (P ++ [(d, i, c)]) ++ map snd seq)).
    { intro c. rewrite map_app. cbn [map fst snd]. rewrite <- app_assoc. exact Hn. }
    assert (Hl' : forall c : N, exists P', P ++ [(d, i, c)] =
        P' ++ [(d, snd (fst (List.last (P ++ [(d, i, c)]) (d, 0, 0))), c)]).
    { intro c. exists P. rewrite last_last. reflexivity. }
    destruct (initial_compare prev d) eqn:E.
    + (* same class *)
      destruct (IH d last (aset acc i last) (P ++ [(d, i, last)])) as (l' & a' & P' & E' & M' & W' & C' & B' & S');
        auto.
      * apply written_set; assumption.
      * assert (Heq : forall p, In p P -> initial_compare (fst (fst p)) d = Eq <-> snd p = last).
        { intros p Hp. change last with (snd pe). rewrite <- (Hc p pe Hp Hpe).
          unfold pe. cbn [fst].
          split; intro H.
          - destruct (initial_compare (fst (fst p)) prev) eqn:E3; [reflexivity| |].
            + exfalso. pose proof (initial_compare_trans prev d (fst (fst p))) as T.
              rewrite E, (initial_compare_sym d), H in T. simpl in T.
              rewrite (initial_compare_sym prev), E3 in T. simpl in T. apply T; congruence.
            + exfalso. eapply Hple; eauto.
          - destruct (initial_compare (fst (fst p)) d) eqn:E3; [reflexivity| |].
            + exfalso. pose proof (initial_compare_trans d prev (fst (fst p))) as T.
              rewrite (initial_compare_sym d prev), E, (initial_compare_sym prev), H,
                (initial_compare_sym d), E3 in T. simpl in T. apply T; congruence.
            + exfalso. eapply Hle; eauto. }
        intros p q Hp Hq. apply in_app_or in Hp, Hq.
        destruct Hp as [Hp|[<-|[]]], Hq as [Hq|[<-|[]]]; cbn [fst snd].
        -- apply Hc; assumption.
        -- apply Heq; exact Hp.
        -- rewrite initial_compare_sym. specialize (Heq q Hq).
           destruct (initial_compare (fst (fst q)) d); simpl; split; intro H; try discriminate;
             try reflexivity; try (symmetry; apply Heq; reflexivity); exfalso;
             symmetry in H; apply Heq in H; discriminate.
        -- split; [reflexivity|]. intros _. unfold initial_compare.
           destruct (d_result d); [|reflexivity]. rewrite string_compare_refl.
           destruct (d_attr d); simpl; [apply string_compare_refl|reflexivity].
      * intros p Hp. apply in_app_or in Hp. destruct Hp as [Hp|[<-|[]]]; simpl; [auto|lia].
      * intros c Hc'. destruct (Hsur c Hc') as (p & Hp & Ep). exists p. split; [|exact Ep].
        apply in_or_app. auto.
      * exists l', a', P'. rewrite E', M', map_app. cbn [map]. rewrite <- app_assoc. auto 10.
    + destruct (IH d (N.succ last) (aset acc i (N.succ last)) (P ++ [(d, i, N.succ last)]))
        as (l' & a' & P' & E' & M' & W' & C' & B' & S'); auto.
      * apply written_set; assumption.
      * assert (Hne : forall p, In p P -> initial_compare (fst (fst p)) d <> Eq).
        { intros p Hp H. pose proof (initial_compare_trans d (fst (fst p)) prev) as T.
          rewrite (initial_compare_sym d (fst (fst p))), H, (initial_compare_sym d prev), E in T.
          simpl in T. apply T; try congruence. apply Hple; exact Hp. }
        intros p q Hp Hq. apply in_app_or in Hp, Hq.
        destruct Hp as [Hp|[<-|[]]], Hq as [Hq|[<-|[]]]; cbn [fst snd].
        -- apply Hc; assumption.
        -- split; intro H; [exfalso; eapply Hne; eauto|]. apply Hb in Hp. lia.
        -- split; intro H; [|apply Hb in Hq; lia]. exfalso. apply (Hne q Hq).
           rewrite initial_compare_sym, H. reflexivity.
        -- split; [reflexivity|]. intros _. unfold initial_compare.
           destruct (d_result d); [|reflexivity]. rewrite string_compare_refl.
           destruct (d_attr d); simpl; [apply string_compare_refl|reflexivity].
      * intros p Hp. apply in_app_or in Hp. destruct Hp as [Hp|[<-|[]]]; simpl; [|lia].
        apply Hb in Hp. lia.
      * intros c Hc'. destruct (N.eq_dec c (N.succ last)) as [->|Hx].
        -- exists (d, i, N.succ last). split; [apply in_or_app; right; left; reflexivity|reflexivity].
        -- destruct (Hsur c) as (p & Hp & Ep); [lia|]. exists p. split; [|exact Ep].
           apply in_or_app. auto.
      * exists l', a', P'. rewrite E', M', map_app. cbn [map]. rewrite <- app_assoc. auto 10.
    + exfalso. apply (Hle pe Hpe). exact E.
Qed.

(* The first split: states fall together exactly when initial_compare cannot
   tell them apart, and the classes used are 0 .. last. *)
Definition classes_ok (dfas : list dnode) (last : N) (cls : arr N) : Prop :=
  (forall i, i < N.of_nat (List.length dfas) -> exists c, aget cls i = Some c /\ c <= last) /\
  (forall c, c <= last -> exists i, i < N.of_nat (List.length dfas) /\ aget cls i = Some c).

Lemma combine_upto_in {A} (dfas : list A) d i :
  In (d, i) (combine dfas (upto (N.of_nat (List.length dfas)))) <->
  nth_error dfas (N.to_nat i) = Some d.
Proof.
  split; intro H.
  - apply In_nth_error in H. destruct H as [k Hk]. apply combine_nth_error in Hk.
    destruct Hk as [H1 H2].
    assert (L : (k < List.length dfas)%nat) by (apply nth_error_Some; congruence).
    rewrite upto_nth in H2 by lia. injection H2 as <-. rewrite Nat2N.id. exact H1.
  - assert (L : (N.to_nat i < List.length dfas)%nat) by (apply nth_error_Some; congruence).
    apply (nth_error_In _ (N.to_nat i)). apply combine_nth_error. split; [exact H|].
    rewrite upto_nth by lia. f_equal. lia.
Qed.

Lemma combine_upto_in2 {A} (dfas : list A) d i :
  In (i, d) (combine (upto (N.of_nat (List.length dfas))) dfas) <->
  nth_error dfas (N.to_nat i) = Some d.
Proof.
  split; intro H.
  - apply In_nth_error in H. destruct H as [k Hk]. apply combine_nth_error in Hk.
    destruct Hk as [H2 H1].
    assert (L : (k < List.length dfas)%nat) by (apply nth_error_Some; congruence).
    rewrite upto_nth in H2 by lia. injection H2 as <-. rewrite Nat2N.id. exact H1.
  - assert (L : (N.to_nat i < List.length dfas)%nat) by (apply nth_error_Some; congruence).
    apply (nth_error_In _ (N.to_nat i)). apply combine_nth_error. split; [|exact H].
    rewrite upto_nth by lia. f_equal. lia.
Qed.

Lemma upto_nodup n : NoDup (upto n).
Proof.
  apply NoDup_nth_error. intros i j Hi E. rewrite upto_length in Hi.
  destruct (Nat.lt_ge_cases j (N.to_nat n)) as [Hj|Hj].
  - rewrite !upto_nth in E by assumption. injection E. lia.
  - rewrite upto_nth in E by assumption. symmetry in E.
    apply nth_error_None in E || rewrite (proj2 (nth_error_None (upto n) j)) in E by (rewrite upto_length; lia).
    discriminate.
Qed.

Lemma map_snd_combine {A B} : forall (l : list A) (l' : list B),
  List.length l = List.length l' -> map snd (combine l l') = l'.
Proof.
  induction l; intros [|y l'] H; simpl in *; try discriminate; [reflexivity|].
  f_equal. apply IHl. lia.
Qed.

Lemma map_fst_combine {A B} : forall (l : list A) (l' : list B),
  List.length l = List.length l' -> map fst (combine l l') = l.
Proof.
  induction l; intros [|y l'] H; simpl in *; try discriminate; [reflexivity|].
  f_equal. apply IHl. lia.
Qed.

Lemma initial_compare_refl d : initial_compare d d = Eq.
Proof.
  unfold initial_compare. destruct (d_result d); [|reflexivity]. rewrite string_compare_refl.
  destruct (d_attr d); simpl; [apply string_compare_refl|reflexivity].
Qed.

Lemma initial_classes dfas last cls :
  dfas <> [] -> assign_initial_classes dfas = (last, cls) ->
  classes_ok dfas last cls /\
  (forall i j a b, nth_error dfas (N.to_nat i) = Some a -> nth_error dfas (N.to_nat j) = Some b ->
     (initial_compare a b = Eq <-> aget cls i = aget cls j)).
Proof.
  intros Hne E. unfold assign_initial_classes in E.
  set (le := fun a b : dnode * N => cmp_le (initial_compare (fst a) (fst b))) in E.
  set (l := combine dfas (upto (N.of_nat (List.length dfas)))) in E.
  assert (Hp : Permutation (sort le l) l) by apply sort_perm.
  assert (Hs : StronglySorted (fun a b => le a b = true) (sort le l)).
  { apply sort_sorted.
    - intros a b. apply cmp_total. apply initial_compare_sym.
    - intros a b d. apply cmp_trans. apply initial_compare_trans. }
  assert (Hl : l <> []).
  { unfold l. intro H. apply (f_equal (@List.length _)) in H.
    rewrite ?map_length, combine_length, upto_length in H. destruct dfas; [congruence|].
    cbn [List.length] in H. lia. }
  destruct (sort le l) as [|[d i] seq] eqn:Es.
  { apply Permutation_nil in Hp. congruence. }
  assert (Hnd : NoDup (map snd ((d, i) :: seq))).
  { eapply Permutation_NoDup; [symmetry; apply Permutation_map; exact Hp|].
    unfold l. rewrite map_snd_combine by (rewrite upto_length; lia). apply upto_nodup. }
  destruct (number_initial_spec seq d 0 (aset (aof []) i 0) [(d, i, 0)])
    as (last' & cls' & P & E' & M & W & C & B & S).
  - exact Hs.
  - exists []. reflexivity.
  - exact Hnd.
  - intros k j c [H|[]]. injection H as <- <- <-. apply aget_set_same.
  - intros p q [<-|[]] [<-|[]]. cbn [fst snd]. rewrite initial_compare_refl. tauto.
  - intros p [<-|[]]. simpl. lia.
  - intros c Hc. exists (d, i, 0). split; [left; reflexivity|simpl; lia].
  - rewrite E in E'. injection E' as <- <-. cbn [map fst app] in M.
    assert (HP : forall k e, nth_error dfas (N.to_nat k) = Some e ->
               exists c, In (e, k, c) P).
    { intros k e H. apply combine_upto_in in H. fold l in H.
      apply (Permutation_in _ (Permutation_sym Hp)) in H. rewrite <- M in H.
      apply in_map_iff in H. destruct H as ([p c] & <- & Hin). exists c. exact Hin. }
    assert (HPi : forall e k c, In (e, k, c) P -> nth_error dfas (N.to_nat k) = Some e).
    { intros e k c H. apply combine_upto_in. fold l. apply (Permutation_in _ Hp).
      rewrite <- M. apply in_map_iff. exists (e, k, c). auto. }
    split; [split|].
    + intros k Hk. destruct (nth_error dfas (N.to_nat k)) as [e|] eqn:Ek.
      2:{ apply nth_error_None in Ek. lia. }
      destruct (HP k e Ek) as [c Hin]. exists c. split; [eapply W; eauto|].
      apply (B _ Hin).
    + intros c Hc. destruct (S c Hc) as ([[e k] c'] & Hin & Ec). simpl in Ec. subst c'.
      exists k. split; [|eapply W; eauto]. apply HPi in Hin.
      assert (N.to_nat k < List.length dfas)%nat by (apply nth_error_Some; congruence). lia.
    + intros k j a b Ha Hb. destruct (HP k a Ha) as [ca Ia]. destruct (HP j b Hb) as [cb Ib].
      rewrite (W _ _ _ Ia), (W _ _ _ Ib). specialize (C _ _ Ia Ib). cbn [fst snd] in C.
      rewrite C. split; congruence.
Qed.

(* ---- splitting ----------------------------------------------------------- *)

Definition kclass (k : skey) : N := fst (fst k).

Lemma general_compare_class a b : general_compare a b <> Gt -> kclass a <= kclass b.
Proof.
  destruct a as [[ca sa] ma], b as [[cb sb] mb]. unfold kclass. simpl.
  destruct (N.compare_spec ca cb); try congruence; lia.
Qed.

Lemma general_compare_antisym a b :
  general_compare a b <> Gt -> general_compare b a <> Gt -> a = b.
Proof.
  intros H1 H2. apply general_compare_eq. rewrite general_compare_sym in H2.
  destruct (general_compare a b); simpl in *; congruence.
Qed.

Lemma split_seq_spec L0 : forall seq prev pnew last had acc (P : list (skey * N * N)),
  StronglySorted (fun a b => cmp_le (general_compare (fst a) (fst b)) = true)
                 (map fst P ++ seq) ->
  (exists P' i, P = P' ++ [(prev, i, pnew)]) ->
  NoDup (map (fun p => snd (fst p)) P ++ map snd seq) ->
  written acc P ->
  (forall p, In p P -> kclass (fst (fst p)) <= L0) ->
  (forall p, In p seq -> kclass (fst p) <= L0) ->
  (forall p q, In p P -> In q P -> (fst (fst p) = fst (fst q) <-> snd p = snd q)) ->
  (forall p, In p P -> snd p <= last) ->
  (forall p, In p P -> snd p <= L0 -> snd p = kclass (fst (fst p))) ->
  (forall p, In p P -> exists q, In q P /\ snd q = kclass (fst (fst p))) ->
  (forall c, L0 < c -> c <= last -> exists p, In p P /\ snd p = c) ->
  L0 <= last -> (had = true -> L0 < last) ->
  (had = false -> last = L0 /\ forall p, In p P -> snd p = kclass (fst (fst p))) ->
  exists last' had' acc' P',
    split_seq prev pnew last had seq acc = (last', had', acc') /\
    map fst P' = map fst P ++ seq /\
    written acc' P' /\
    (forall p q, In p P' -> In q P' -> (fst (fst p) = fst (fst q) <-> snd p = snd q)) /\
    (forall p, In p P' -> snd p <= last') /\
    (forall p, In p P' -> exists q, In q P' /\ snd q = kclass (fst (fst p))) /\
    (forall c, L0 < c -> c <= last' -> exists p, In p P' /\ snd p = c) /\
    L0 <= last' /\ (had' = true -> L0 < last') /\
    (had' = false -> last' = L0 /\ forall p, In p P' -> snd p = kclass (fst (fst p))).
Proof.
  induction seq as [|[k i] seq IH];
    intros prev pnew last had acc P Hs Hl Hn Hw Hk Hks Hc Hb Ho Hcl Hsur HL Ht Hf.
  - exists last, had, acc, P. rewrite app_nil_r. auto 15.
  - cbn [split_seq]. fold (kclass k). fold (kclass prev).
    destruct Hl as (P0 & i0 & EP).
    assert (Hpe : In (prev, i0, pnew) P) by (rewrite EP; apply in_or_app; right; left; reflexivity).
    assert (Hi : ~ In i (map (fun p => snd (fst p)) P)).
    { intro H. simpl in Hn. apply NoDup_remove_2 in Hn. apply Hn. apply in_or_app. auto. }
    assert (Hle : forall p, In p P -> general_compare (fst (fst p)) k <> Gt).
    { intros p Hp. pose proof (sorted_before _ _ _ _ Hs (fst p)) as X. cbn [fst] in X.
      specialize (X (in_map _ _ _ Hp)).
      destruct (general_compare (fst (fst p)) k); simpl in X; congruence. }
    assert (Hple : forall p, In p P -> general_compare (fst (fst p)) prev <> Gt).
    { intros p Hp. rewrite EP in Hp. apply in_app_or in Hp. destruct Hp as [Hp|[<-|[]]].
      - rewrite EP, map_app in Hs. cbn [map] in Hs. rewrite <- app_assoc in Hs.
        pose proof (sorted_before _ _ _ _ Hs (fst p)) as X. cbn [fst] in X.
        specialize (X (in_map _ _ _ Hp)).
        destruct (general_compare (fst (fst p)) prev); simpl in X; congruence.
      - cbn [fst]. rewrite (proj2 (general_compare_eq prev prev) eq_refl). congruence. }
    assert (Hs' : forall c, StronglySorted (fun a b => cmp_le (general_compare (fst a) (fst b)) = true)
         (map fst (P ++ [(k, i, c)]) ++ seq)).
    { intro c. rewrite map_app. cbn [map]. rewrite <- app_assoc. exact Hs. }
    assert (Hn' : forall c : N, NoDup (map (fun p : skey * N * N => snd (fst p)) (P ++ [(k, i, c)]) ++ map snd seq)).
    { intro c. rewrite map_app. cbn [map fst snd]. rewrite <- app_assoc. exact Hn. }
    assert (Hl' : forall c : N, exists P' j, P ++ [(k, i, c)] = P' ++ [(k, j, c)]).
    { intro c. exists P, i. reflexivity. }
    assert (Hw' : forall c, written (aset acc i c) (P ++ [(k, i, c)])).
    { intro c. apply written_set; assumption. }
    assert (Hkk : kclass k <= L0) by (apply (Hks (k, i)); left; reflexivity).
    assert (Hk' : forall c p, In p (P ++ [(k, i, c)]) -> kclass (fst (fst p)) <= L0).
    { intros c p Hp. apply in_app_or in Hp. destruct Hp as [Hp|[<-|[]]]; [auto|exact Hkk]. }
    assert (Hks' : forall p, In p seq -> kclass (fst p) <= L0).
    { intros p Hp. apply Hks. right. exact Hp. }
    (* a number not used so far for a key not met so far *)
    assert (Hfresh : forall c, (forall p, In p P -> fst (fst p) <> k) ->
        (forall p, In p P -> snd p <> c) ->
        forall p q, In p (P ++ [(k, i, c)]) -> In q (P ++ [(k, i, c)]) ->
        (fst (fst p) = fst (fst q) <-> snd p = snd q)).
    { intros c H1 H2 p q Hp Hq. apply in_app_or in Hp, Hq.
      destruct Hp as [Hp|[<-|[]]], Hq as [Hq|[<-|[]]]; cbn [fst snd].
      - apply Hc; assumption.
      - split; intro H; exfalso; [eapply H1|eapply H2]; eauto.
      - split; intro H; exfalso; [apply (H1 q)|apply (H2 q)]; auto.
      - tauto. }
    assert (Fin : forall (c : N) (P' : list (skey * N * N)),
      map fst P' = map fst (P ++ [(k, i, c)]) ++ seq ->
      map fst P' = map fst P ++ (k, i) :: seq).
    { intros c P' H. rewrite H, map_app. cbn [map]. rewrite <- app_assoc. reflexivity. }
    destruct (N.eqb_spec (kclass k) (kclass prev)) as [Ec|Ec].
    + destruct (general_compare k prev) eqn:E.
      * apply general_compare_eq in E. subst k.
        destruct (IH prev pnew last had (aset acc i pnew) (P ++ [(prev, i, pnew)]))
          as (l' & h' & a' & P' & E' & M' & R'); auto; try (exact (Hk' _)).
        -- intros p q Hp Hq. apply in_app_or in Hp, Hq.
           destruct Hp as [Hp|[<-|[]]], Hq as [Hq|[<-|[]]]; cbn [fst snd]; try tauto.
           ++ apply Hc; assumption.
           ++ apply (Hc p _ Hp Hpe).
           ++ apply (Hc _ q Hpe Hq).
        -- intros p Hp. apply in_app_or in Hp. destruct Hp as [Hp|[<-|[]]]; [auto|].
           apply (Hb _ Hpe).
        -- intros p Hp. apply in_app_or in Hp. destruct Hp as [Hp|[<-|[]]]; [auto|].
           apply (Ho _ Hpe).
        -- intros p Hp. apply in_app_or in Hp.
           assert (X : exists q, In q P /\ snd q = kclass (fst (fst p))).
           { destruct Hp as [Hp|[<-|[]]]; [auto|]. apply (Hcl _ Hpe). }
           destruct X as (q & Hq & Eq). exists q. split; [apply in_or_app; auto|exact Eq].
        -- intros c H1 H2. destruct (Hsur c H1 H2) as (p & Hp & Ep). exists p.
           split; [apply in_or_app; auto|exact Ep].
        -- intro H. destruct (Hf H) as [H1 H2]. split; [exact H1|]. intros p Hp.
           apply in_app_or in Hp. destruct Hp as [Hp|[<-|[]]]; [auto|]. apply (H2 _ Hpe).
        -- exists l', h', a', P'. split; [exact E'|]. split; [eapply Fin; eauto|exact R'].
      * exfalso. apply (Hle _ Hpe). cbn [fst]. rewrite general_compare_sym, E. reflexivity.
      * assert (Hnew : forall p, In p P -> fst (fst p) <> k).
        { intros p Hp Ek. pose proof (Hple p Hp) as H. rewrite Ek, E in H. congruence. }
        destruct (IH k (N.succ last) (N.succ last) true (aset acc i (N.succ last))
                     (P ++ [(k, i, N.succ last)]))
          as (l' & h' & a' & P' & E' & M' & R'); auto; try (exact (Hk' _)).
        -- apply Hfresh; [exact Hnew|]. intros p Hp H. apply Hb in Hp. lia.
        -- intros p Hp. apply in_app_or in Hp. destruct Hp as [Hp|[<-|[]]]; [|simpl; lia].
           apply Hb in Hp. lia.
        -- intros p Hp H. apply in_app_or in Hp. destruct Hp as [Hp|[<-|[]]]; [auto|].
           simpl in H. lia.
        -- intros p Hp. apply in_app_or in Hp.
           assert (X : exists q, In q P /\ snd q = kclass (fst (fst p))).
           { destruct Hp as [Hp|[<-|[]]]; [auto|]. cbn [fst]. rewrite Ec. apply (Hcl _ Hpe). }
           destruct X as (q & Hq & Eq). exists q. split; [apply in_or_app; auto|exact Eq].
        -- intros c H1 H2. destruct (N.eq_dec c (N.succ last)) as [->|Hx].
           ++ exists (k, i, N.succ last). split; [apply in_or_app; right; left; reflexivity|reflexivity].
           ++ destruct (Hsur c) as (p & Hp & Ep); [exact H1|lia|]. exists p.
              split; [apply in_or_app; auto|exact Ep].
        -- lia.
        -- lia.
        -- discriminate.
        -- exists l', h', a', P'. split; [exact E'|]. split; [eapply Fin; eauto|exact R'].
    + assert (Hlt : kclass prev < kclass k).
      { pose proof (general_compare_class _ _ (Hle _ Hpe)). cbn [fst] in *. lia. }
      assert (Hold : forall p, In p P -> kclass (fst (fst p)) < kclass k).
      { intros p Hp. pose proof (general_compare_class _ _ (Hple _ Hp)). lia. }
      destruct (IH k (kclass k) last had (aset acc i (kclass k)) (P ++ [(k, i, kclass k)]))
        as (l' & h' & a' & P' & E' & M' & R'); auto; try (exact (Hk' _)).
      * apply Hfresh.
        -- intros p Hp Ek. apply Hold in Hp. rewrite Ek in Hp. lia.
        -- intros p Hp Ep. pose proof (Hold p Hp). rewrite (Ho p Hp) in Ep by lia. lia.
      * intros p Hp. apply in_app_or in Hp. destruct Hp as [Hp|[<-|[]]]; [auto|]. simpl. lia.
      * intros p Hp H. apply in_app_or in Hp. destruct Hp as [Hp|[<-|[]]]; [auto|]. reflexivity.
      * intros p Hp. apply in_app_or in Hp. destruct Hp as [Hp|[<-|[]]].
        -- destruct (Hcl p Hp) as (q & Hq & Eq). exists q. split; [apply in_or_app; auto|exact Eq].
        -- exists (k, i, kclass k). split; [apply in_or_app; right; left; reflexivity|reflexivity].
      * intros c H1 H2. destruct (Hsur c H1 H2) as (p & Hp & Ep). exists p.
        split; [apply in_or_app; auto|exact Ep].
      * intro H. destruct (Hf H) as [H1 H2]. split; [exact H1|]. intros p Hp.
        apply in_app_or in Hp. destruct Hp as [Hp|[<-|[]]]; [auto|]. reflexivity.
      * exists l', h', a', P'. split; [exact E'|]. split; [eapply Fin; eauto|exact R'].
Qed.

(* One round of splitting: the new classes are exactly the distinct keys; it
   reports no change exactly when the classes were already stable. *)
Lemma split_round dfas last cls :
  dfas <> [] -> classes_ok dfas last cls ->
  exists last' cls',
    classes_ok dfas last' cls' /\ last <= last' /\
    (forall i j a b, nth_error dfas (N.to_nat i) = Some a -> nth_error dfas (N.to_nat j) = Some b ->
       (state_key cls i a = state_key cls j b <-> aget cls' i = aget cls' j)) /\
    ((split_classes dfas (last, cls) = inl (last', cls') /\ last < last') \/
     (split_classes dfas (last, cls) = inr (last', cls') /\ last' = last /\
      forall i, i < N.of_nat (List.length dfas) -> aget cls' i = aget cls i)).
Proof.
  intros Hne [Hdef Hsurj]. unfold split_classes.
  set (le := fun a b : skey * N => cmp_le (general_compare (fst a) (fst b))).
  set (l := map (fun p : N * dnode => (state_key cls (fst p) (snd p), fst p))
                (combine (upto (N.of_nat (List.length dfas))) dfas)).
  assert (Hp : Permutation (sort le l) l) by apply sort_perm.
  assert (Hs : StronglySorted (fun a b => le a b = true) (sort le l)).
  { apply sort_sorted.
    - intros a b. apply cmp_total. apply general_compare_sym.
    - intros a b d. apply cmp_trans. apply general_compare_trans. }
  assert (Hl : l <> []).
  { unfold l. intro H. apply (f_equal (@List.length _)) in H.
    rewrite ?map_length, combine_length, upto_length in H. destruct dfas; [congruence|].
    cbn [List.length] in H. lia. }
  assert (Hin : forall k i, In (k, i) l <-> exists d, nth_error dfas (N.to_nat i) = Some d /\ k = state_key cls i d).
  { intros k i. unfold l. rewrite in_map_iff. split.
    - intros ([j d] & E & H). cbn [fst snd] in E. injection E as <- <-. exists d.
      split; [apply combine_upto_in2; exact H|reflexivity].
    - intros (d & H & ->). exists (i, d). split; [reflexivity|]. apply combine_upto_in2. exact H. }
  assert (Hcls : forall k i, In (k, i) l -> i < N.of_nat (List.length dfas) /\ aget cls i = Some (kclass k) /\ kclass k <= last).
  { intros k i H. apply Hin in H. destruct H as (d & H & ->).
    assert (L : (N.to_nat i < List.length dfas)%nat) by (apply nth_error_Some; congruence).
    destruct (Hdef i) as (c & Hc & Hle); [lia|]. split; [lia|]. unfold kclass, state_key. cbn [fst].
    unfold class_of. rewrite Hc. auto. }
  destruct (sort le l) as [|[k i] seq] eqn:Es.
  { apply Permutation_nil in Hp. congruence. }
  assert (Hin' : forall q, In q ((k, i) :: seq) <-> In q l).
  { intro q. split; intro H; [apply (Permutation_in _ Hp)|apply (Permutation_in _ (Permutation_sym Hp))]; exact H. }
  assert (Hnd : NoDup (map snd ((k, i) :: seq))).
  { eapply Permutation_NoDup; [symmetry; apply Permutation_map; exact Hp|].
    unfold l. rewrite map_map. cbn [snd fst].
    rewrite (map_fst_combine (upto _) dfas) by (rewrite upto_length; lia). apply upto_nodup. }
  destruct (split_seq_spec last seq k (kclass k) last false (aset (aof []) i (kclass k))
             [(k, i, kclass k)]) as (last' & had & cls' & P & E & M & W & C & B & Cl & Su & L & T & F).
  - exact Hs.
  - exists [], i. reflexivity.
  - exact Hnd.
  - intros k' j c [H|[]]. injection H as <- <- <-. apply aget_set_same.
  - intros p [<-|[]]. cbn [fst]. apply (Hcls k i). apply Hin'. left. reflexivity.
  - intros [k' j] Hq. cbn [fst]. apply (Hcls k' j). apply Hin'. right. exact Hq.
  - intros p q [<-|[]] [<-|[]]. tauto.
  - intros p [<-|[]]. simpl. apply (Hcls k i). apply Hin'. left. reflexivity.
  - intros p [<-|[]] _. reflexivity.
  - intros p [<-|[]]. exists (k, i, kclass k). split; [left; reflexivity|reflexivity].
  - intros c H1 H2. lia.
  - lia.
  - discriminate.
  - intros _. split; [reflexivity|]. intros p [<-|[]]. reflexivity.
  - fold (kclass k). cbn [map fst app] in M. rewrite E.
    assert (HP : forall j e, nth_error dfas (N.to_nat j) = Some e ->
               exists c, In (state_key cls j e, j, c) P).
    { intros j e H. assert (X : In (state_key cls j e, j) (map fst P)).
      { rewrite M. apply Hin'. apply Hin. eauto. }
      apply in_map_iff in X. destruct X as ([p c] & Ep & Hx). cbn [fst] in Ep. subst p. eauto. }
    assert (HPi : forall k' j c, In (k', j, c) P -> In (k', j) l).
    { intros k' j c H. apply Hin'. rewrite <- M. apply in_map_iff. exists (k', j, c). auto. }
    exists last', cls'. split; [split|].
    + intros j Hj. destruct (nth_error dfas (N.to_nat j)) as [e|] eqn:Ej.
      2:{ apply nth_error_None in Ej. lia. }
      destruct (HP j e Ej) as [c Hx]. exists c. split; [eapply W; eauto|]. apply (B _ Hx).
    + assert (X : forall c, c <= last' -> exists p, In p P /\ snd p = c).
      { intros c Hc. destruct (N.le_gt_cases c last) as [H|H]; [|apply Su; assumption].
        destruct (Hsurj c H) as (j & Hj & Ej). destruct (nth_error dfas (N.to_nat j)) as [e|] eqn:Ee.
        2:{ apply nth_error_None in Ee. lia. }
        destruct (HP j e Ee) as [c' Hx]. destruct (Cl _ Hx) as (q & Hq & Eq).
        exists q. split; [exact Hq|]. rewrite Eq. unfold kclass, state_key, class_of. cbn [fst].
        rewrite Ej. reflexivity. }
      intros c Hc. destruct (X c Hc) as ([[k' j] c'] & Hx & <-). exists j.
      split; [|eapply W; eauto]. apply HPi in Hx. apply Hcls in Hx. tauto.
    + split; [exact L|]. split.
      * intros j1 j2 a b Ha Hb. destruct (HP j1 a Ha) as [c1 I1]. destruct (HP j2 b Hb) as [c2 I2].
        rewrite (W _ _ _ I1), (W _ _ _ I2). rewrite (C _ _ I1 I2). cbn [snd]. split; congruence.
      * destruct had.
        -- left. split; [reflexivity|]. apply T. reflexivity.
        -- right. destruct (F eq_refl) as [F1 F2]. split; [reflexivity|]. split; [exact F1|].
           intros j Hj. destruct (nth_error dfas (N.to_nat j)) as [e|] eqn:Ee.
           2:{ apply nth_error_None in Ee. lia. }
           destruct (HP j e Ee) as [c Hx]. rewrite (W _ _ _ Hx). apply F2 in Hx as Hy.
           cbn [fst snd] in Hy. subst c. apply HPi, Hcls in Hx. symmetry. tauto.
Qed.

(* The classes never outnumber the states. *)
Lemma classes_bound dfas last cls : classes_ok dfas last cls ->
  last < N.of_nat (List.length dfas).
Proof.
  intros [_ Hs].
  assert (H : (List.length (upto (N.succ last)) <= List.length
                (map (class_of cls) (upto (N.of_nat (List.length dfas)))))%nat).
  { apply NoDup_incl_length; [apply upto_nodup|]. intros c Hc. apply upto_in in Hc.
    destruct (Hs c) as (i & Hi & E); [lia|]. apply in_map_iff. exists i.
    split; [unfold class_of; rewrite E; reflexivity|apply upto_in; exact Hi]. }
  rewrite map_length, !upto_length in H. lia.
Qed.

(* ---- the whole iteration ---------------------------------------------- *)

Lemma walk_none rows w : walk rows None w = None.
Proof. destruct w; reflexivity. Qed.

Lemma walk_app rows : forall u s v, walk rows s (u ++ v) = walk rows (walk rows s u) v.
Proof.
  induction u as [|t u IH]; intros s v; [reflexivity|]. cbn [app walk].
  destruct s; [apply IH|]. symmetry. apply walk_none.
Qed.

Lemma initial_compare_observe a b :
  initial_compare a b = Eq <->
  match d_result a with Some r => Some (r, d_attr a) | None => None end =
  match d_result b with Some r => Some (r, d_attr b) | None => None end.
Proof.
  unfold initial_compare. destruct (d_result a) as [x|], (d_result b) as [y|];
    try (split; congruence).
  split.
  - destruct (String.compare x y) eqn:E; try discriminate. apply String.compare_eq_iff in E.
    subst y. destruct (d_attr a) as [u|], (d_attr b) as [v|]; simpl; try discriminate; try reflexivity.
    intro H. apply String.compare_eq_iff in H. congruence.
  - intro H. injection H as -> ->. rewrite string_compare_refl.
    destruct (d_attr b); simpl; [apply string_compare_refl|reflexivity].
Qed.

Lemma class_sig_of_dest cls : forall m m', dest_classes cls m = dest_classes cls m' ->
  class_sig cls m = class_sig cls m'.
Proof.
  unfold class_sig. intros m m'. generalize 0. revert m'.
  induction m as [|x m IH]; intros [|y m'] s H; try discriminate; [reflexivity|].
  cbn [dest_classes map] in H. injection H as Hx Hm. cbn [fold_left].
  destruct x as [x|], y as [y|]; try lia.
  - apply N.succ_inj in Hx. rewrite Hx. apply IH. exact Hm.
  - apply IH. exact Hm.
Qed.

Section Min.
  Variable dfas : list dnode.
  Variable nt : nat.
  Let n := N.of_nat (List.length dfas).
  Let rows := map d_map dfas.
  Hypothesis Hne : dfas <> [].
  Hypothesis Hlen : Forall (fun d => List.length (d_map d) = nt) dfas.
  Hypothesis Hclosed : closed_table rows.

  Lemma state_at i : i < n -> exists d, nth_error dfas (N.to_nat i) = Some d.
  Proof.
    intro H. destruct (nth_error dfas (N.to_nat i)) eqn:E; [eauto|].
    apply nth_error_None in E. unfold n in H. lia.
  Qed.

  Lemma state_lt i d : nth_error dfas (N.to_nat i) = Some d -> i < n.
  Proof.
    intro H. assert (N.to_nat i < List.length dfas)%nat by (apply nth_error_Some; congruence).
    unfold n. lia.
  Qed.

  Lemma entry_at i d t : nth_error dfas (N.to_nat i) = Some d ->
    entry rows i t = match nth_error (d_map d) (N.to_nat t) with Some x => x | None => None end.
  Proof. intro H. unfold entry, rows. rewrite (map_nth_error d_map _ _ H). reflexivity. Qed.

  Lemma dest_lt i d k x : nth_error dfas (N.to_nat i) = Some d ->
    nth_error (d_map d) k = Some (Some x) -> x < n.
  Proof.
    intros Hd Hk. unfold closed_table, rows in Hclosed. rewrite Forall_forall in Hclosed.
    specialize (Hclosed (d_map d)). rewrite Forall_forall in Hclosed.
    specialize (Hclosed (in_map _ _ _ (nth_error_In _ _ Hd)) (Some x) (nth_error_In _ _ Hk)).
    cbn in Hclosed. rewrite map_length in Hclosed. exact Hclosed.
  Qed.

  Definition refined (st : N * arr N) : Prop :=
    let '(last, cls) := st in
    classes_ok dfas last cls /\
    (forall i j a b, nth_error dfas (N.to_nat i) = Some a -> nth_error dfas (N.to_nat j) = Some b ->
       aget cls i = aget cls j -> initial_compare a b = Eq) /\
    (forall i j, i < n -> j < n -> same_behaviour dfas i j -> aget cls i = aget cls j).

  Lemma class_of_eq cls last i j : classes_ok dfas last cls -> i < n -> j < n ->
    (class_of cls i = class_of cls j <-> aget cls i = aget cls j).
  Proof.
    intros [H _] Hi Hj. destruct (H i Hi) as (c & E & _). destruct (H j Hj) as (c' & E' & _).
    unfold class_of. rewrite E, E'. split; congruence.
  Qed.

  Lemma refined_initial : refined (assign_initial_classes dfas).
  Proof.
    destruct (assign_initial_classes dfas) as [last cls] eqn:E.
    destruct (initial_classes dfas last cls Hne E) as [Hok Hc]. split; [exact Hok|]. split.
    - intros i j a b Ha Hb H. apply (Hc i j a b Ha Hb). exact H.
    - intros i j Hi Hj H. destruct (state_at i Hi) as [a Ha]. destruct (state_at j Hj) as [b Hb].
      apply (Hc i j a b Ha Hb). apply initial_compare_observe. specialize (H []).
      unfold after in H. cbn in H. rewrite Ha, Hb in H. congruence.
  Qed.

  Lemma nth_error_ext' {A} : forall (l l' : list A),
    (forall k, nth_error l k = nth_error l' k) -> l = l'.
  Proof.
    induction l as [|x l IH]; intros [|y l'] H; try reflexivity.
    - specialize (H O). discriminate.
    - specialize (H O). discriminate.
    - pose proof (H O) as H0. injection H0 as <-. f_equal. apply IH. intro k. apply (H (S k)).
  Qed.

  (* equivalent states have the same key *)
  Lemma same_key last cls i j a b : refined (last, cls) ->
    nth_error dfas (N.to_nat i) = Some a -> nth_error dfas (N.to_nat j) = Some b ->
    same_behaviour dfas i j -> state_key cls i a = state_key cls j b.
  Proof.
    intros (Hok & _ & Hb) Ha Hbb H. pose proof (state_lt _ _ Ha) as Li. pose proof (state_lt _ _ Hbb) as Lj.
    assert (Hd : dest_classes cls (d_map a) = dest_classes cls (d_map b)).
    { apply nth_error_ext'. intro k. unfold dest_classes. rewrite !nth_error_map.
      pose proof (H [N.of_nat k]) as H0. 
      assert (Hs : forall x y, nth_error (d_map a) k = Some (Some x) ->
                 nth_error (d_map b) k = Some (Some y) -> same_behaviour dfas x y).
      { intros x y Hx Hy w. specialize (H (N.of_nat k :: w)). unfold after in H |- *.
        cbn [walk] in H. fold rows in H |- *. rewrite (entry_at i a), (entry_at j b), Nat2N.id, Hx, Hy in H by assumption.
        exact H. }
      unfold after in H0. cbn [walk] in H0. fold rows in H0.
      rewrite (entry_at i a), (entry_at j b), Nat2N.id in H0 by assumption.
      assert (Hl : List.length (d_map a) = List.length (d_map b)).
      { rewrite Forall_forall in Hlen. rewrite (Hlen a), (Hlen b); [reflexivity| |];
          eapply nth_error_In; eauto. }
      destruct (nth_error (d_map a) k) as [[x|]|] eqn:Ex, (nth_error (d_map b) k) as [[y|]|] eqn:Ey;
        cbn [option_map]; try reflexivity.
      - f_equal. f_equal. pose proof (dest_lt _ _ _ _ Ha Ex). pose proof (dest_lt _ _ _ _ Hbb Ey).
        apply (class_of_eq cls last); try assumption. apply Hb; auto.
      - exfalso. destruct (state_at x (dest_lt _ _ _ _ Ha Ex)) as [z Hz]. cbn in H0. rewrite Hz in H0. discriminate.
      - exfalso. apply nth_error_None in Ey. assert (k < List.length (d_map a))%nat by (apply nth_error_Some; congruence). lia.
      - exfalso. destruct (state_at y (dest_lt _ _ _ _ Hbb Ey)) as [z Hz]. cbn in H0. rewrite Hz in H0. discriminate.
      - exfalso. apply nth_error_None in Ey. assert (k < List.length (d_map a))%nat by (apply nth_error_Some; congruence). lia.
      - exfalso. apply nth_error_None in Ex. assert (k < List.length (d_map b))%nat by (apply nth_error_Some; congruence). lia.
      - exfalso. apply nth_error_None in Ex. assert (k < List.length (d_map b))%nat by (apply nth_error_Some; congruence). lia. }
    unfold state_key. rewrite Hd, (class_sig_of_dest _ _ _ Hd). f_equal. f_equal.
    apply (class_of_eq cls last); auto.
  Qed.

  Lemma refined_split last cls last' cls' :
    refined (last, cls) -> classes_ok dfas last' cls' ->
    (forall i j a b, nth_error dfas (N.to_nat i) = Some a -> nth_error dfas (N.to_nat j) = Some b ->
       (state_key cls i a = state_key cls j b <-> aget cls' i = aget cls' j)) ->
    refined (last', cls').
  Proof.
    intros R Hok' Hk. pose proof R as (Hok & Hi & Hb). split; [exact Hok'|]. split.
    - intros i j a b Ha Hbb E. apply (Hk i j a b Ha Hbb) in E. apply (Hi i j a b Ha Hbb).
      apply (class_of_eq cls last); [exact Hok|eapply state_lt; eauto|eapply state_lt; eauto|].
      unfold state_key in E. congruence.
    - intros i j Li Lj S. destruct (state_at i Li) as [a Ha]. destruct (state_at j Lj) as [b Hbb].
      apply (Hk i j a b Ha Hbb). eapply same_key; eauto.
  Qed.

  Definition settled (st : N * arr N) : Prop :=
    refined st /\
    forall i j a b, nth_error dfas (N.to_nat i) = Some a -> nth_error dfas (N.to_nat j) = Some b ->
      aget (snd st) i = aget (snd st) j ->
      dest_classes (snd st) (d_map a) = dest_classes (snd st) (d_map b).

  Lemma dest_classes_ext cls cls' i a : nth_error dfas (N.to_nat i) = Some a ->
    (forall i, i < n -> aget cls' i = aget cls i) ->
    dest_classes cls' (d_map a) = dest_classes cls (d_map a).
  Proof.
    intros Ha H. unfold dest_classes. apply map_ext_in. intros [x|] Hx; [|reflexivity].
    unfold class_of. rewrite H; [reflexivity|]. apply In_nth_error in Hx. destruct Hx as [k Hk].
    eapply dest_lt; eauto.
  Qed.

  Lemma split_loop : exists st,
    loop (split_classes dfas) (N.succ_pos n) (assign_initial_classes dfas) = inr st /\ settled st.
  Proof.
    assert (Hstep : forall s s', refined s -> split_classes dfas s = inl s' ->
              refined s' /\ n - fst s' < n - fst s).
    { intros [last cls] s' R E. pose proof R as (Hok & _).
      destruct (split_round dfas last cls Hne Hok) as (last' & cls' & Hok' & Hle & Hk & [[E' Hlt]|[E' _]]);
        rewrite E in E'; [|discriminate]. injection E' as ->.
      split; [eapply refined_split; eauto|].
      pose proof (classes_bound _ _ _ Hok'). cbn [fst]. unfold n. lia. }
    destruct (loop_measure (split_classes dfas) refined (fun s => n - fst s) (N.succ_pos n)
                (assign_initial_classes dfas)) as [r Er].
    - exact Hstep.
    - apply refined_initial.
    - rewrite N.succ_pos_spec. lia.
    - exists r. split; [exact Er|].
      pose proof (loop_inv (split_classes dfas) refined settled) as L.
      specialize (L (fun s s' H E => proj1 (Hstep s s' H E))).
      assert (Q : forall s r, refined s -> split_classes dfas s = inr r -> settled r).
      { intros [last cls] r' R E. pose proof R as (Hok & _).
        destruct (split_round dfas last cls Hne Hok) as (last' & cls' & Hok' & Hle & Hk & [[E' _]|[E' [El Hs]]]);
          rewrite E in E'; [discriminate|]. injection E' as ->.
        split; [eapply refined_split; eauto|]. cbn [snd]. intros i j a b Ha Hb Ec.
        apply (Hk i j a b Ha Hb) in Ec. rewrite (dest_classes_ext cls cls' i a), (dest_classes_ext cls cls' j b) by assumption.
        unfold state_key in Ec. congruence. }
      specialize (L Q (N.succ_pos n) _ refined_initial). rewrite Er in L. exact L.
  Qed.
End Min.

(* ---- representatives --------------------------------------------------- *)

Lemma choose_reps_length cls : forall n i reps next,
  List.length (choose_reps cls i n reps next) = n.
Proof.
  induction n; intros i reps next; [reflexivity|]. cbn [choose_reps].
  destruct (aget reps (class_of cls i)); simpl; rewrite IHn; reflexivity.
Qed.

Lemma choose_reps_spec {A} cls : forall (l : list A) i reps next,
  (forall c r, aget reps c = Some r -> r < next) ->
  exists F : N -> option N,
    (forall c r, aget reps c = Some r -> F c = Some r) /\
    (forall c c' r, F c = Some r -> F c' = Some r -> aget reps c = None -> c = c') /\
    (forall c r, F c = Some r -> aget reps c = None -> next <= r) /\
    (forall k x, nth_error l k = Some x ->
       exists r b, nth_error (choose_reps cls i (List.length l) reps next) k = Some (r, b) /\
         F (class_of cls (i + N.of_nat k)) = Some r) /\
    (forall c r, F c = Some r -> aget reps c = None ->
       exists k x p, nth_error l k = Some x /\ class_of cls (i + N.of_nat k) = c /\
         nth_error (filter (fun p => snd (snd p))
            (combine l (choose_reps cls i (List.length l) reps next))) (N.to_nat (r - next)) = Some (x, p)) /\
    (forall k x p, nth_error (filter (fun p => snd (snd p))
            (combine l (choose_reps cls i (List.length l) reps next))) k = Some (x, p) ->
       exists c, F c = Some (next + N.of_nat k) /\ aget reps c = None).
Proof.
  induction l as [|x l IH]; intros i reps next Hlt.
  - exists (aget reps). cbn. repeat split; try congruence; auto.
    + intros [|k] y H; discriminate.
    + intros [|k] y p H; discriminate.
  - cbn [List.length choose_reps]. set (c0 := class_of cls i).
    destruct (aget reps c0) as [r0|] eqn:E0.
    + destruct (IH (N.succ i) reps next Hlt) as (F & F1 & F2 & F3 & F4 & F5 & F6).
      exists F. split; [exact F1|]. split; [exact F2|]. split; [exact F3|].
      split; [|split].
      * intros [|k] y H; cbn [nth_error].
        -- exists r0, false. split; [reflexivity|]. rewrite N.add_0_r. apply F1. exact E0.
        -- destruct (F4 k y H) as (r & b & H1 & H2). exists r, b. split; [exact H1|].
           rewrite <- H2. f_equal. f_equal. lia.
      * intros c r Hc Hn. destruct (F5 c r Hc Hn) as (k & y & p & H1 & H2 & H3).
        exists (S k), y, p. split; [exact H1|]. split; [|exact H3].
        rewrite <- H2. f_equal. lia.
      * intros k y p H. cbn [combine filter snd] in H. apply F6 in H. exact H.
    + destruct (IH (N.succ i) (aset reps c0 next) (N.succ next)) as (F & F1 & F2 & F3 & F4 & F5 & F6).
      { intros c r H. rewrite aget_set in H. destruct (N.eqb_spec c c0); [injection H; lia|].
        apply Hlt in H. lia. }
      assert (Fc0 : F c0 = Some next) by (apply F1; apply aget_set_same).
      assert (Hset : forall c, c <> c0 -> aget (aset reps c0 next) c = aget reps c)
        by (intros; apply aget_set_other; assumption).
      exists F. split; [|split; [|split; [|split; [|split]]]].
      * intros c r H. apply F1. rewrite Hset; [exact H|]. intros ->. congruence.
      * intros c c' r H H' Hn. destruct (N.eq_dec c c0) as [->|Hx].
        -- destruct (N.eq_dec c' c0) as [->|Hy]; [reflexivity|]. exfalso.
           rewrite Fc0 in H. injection H as <-.
           destruct (aget reps c') as [r|] eqn:Er.
           ++ pose proof (Hlt _ _ Er). rewrite (F1 c' r) in H' by (rewrite Hset; assumption).
              injection H'. lia.
           ++ apply F3 in H'; [lia|]. rewrite Hset; assumption.
        -- apply (F2 c c' r H H'). rewrite Hset; assumption.
      * intros c r H Hn. destruct (N.eq_dec c c0) as [->|Hx].
        -- rewrite Fc0 in H. injection H. lia.
        -- apply F3 in H; [lia|]. rewrite Hset; assumption.
      * intros [|k] y H; cbn [nth_error].
        -- exists next, true. split; [reflexivity|]. rewrite N.add_0_r. exact Fc0.
        -- destruct (F4 k y H) as (r & b & H1 & H2). exists r, b. split; [exact H1|].
           rewrite <- H2. f_equal. f_equal. lia.
      * intros c r Hc Hn. cbn [combine filter snd]. destruct (N.eq_dec c c0) as [->|Hx].
        -- rewrite Fc0 in Hc. injection Hc as <-. exists O, x, (next, true).
           split; [reflexivity|]. split; [rewrite N.add_0_r; reflexivity|].
           replace (N.to_nat (next - next)) with O by lia. reflexivity.
        -- assert (Hn' : aget (aset reps c0 next) c = None) by (rewrite Hset; assumption).
           pose proof (F3 c r Hc Hn') as Hr.
           destruct (F5 c r Hc Hn') as (k & y & p & H1 & H2 & H3).
           exists (S k), y, p. split; [exact H1|]. split; [rewrite <- H2; f_equal; lia|].
           replace (N.to_nat (r - next)) with (S (N.to_nat (r - N.succ next))) by lia. exact H3.
      * intros [|k] y p H; cbn [combine filter snd nth_error] in H.
        -- exists c0. rewrite N.add_0_r. auto.
        -- apply F6 in H. destruct H as (c & H1 & H2). exists c. split; [rewrite H1; f_equal; lia|].
           destruct (N.eq_dec c c0) as [->|Hx]; [rewrite aget_set_same in H2; discriminate|].
           rewrite Hset in H2; assumption.
Qed.

Section Quotient.
  Variable dfas : list dnode.
  Variable nt : nat.
  Hypothesis Hne : dfas <> [].
  Hypothesis Hlen : Forall (fun d => List.length (d_map d) = nt) dfas.
  Hypothesis Hclosed : closed_table (map d_map dfas).
  Variable last : N.
  Variable cls : arr N.
  Hypothesis Hset : settled dfas (last, cls).

  Let n := N.of_nat (List.length dfas).
  Let reps := choose_reps cls 0 (List.length dfas) (aof []) 0.
  Let idx := aof (map fst reps).
  Let kept := filter (fun p : dnode * (N * bool) => snd (snd p)) (combine dfas reps).
  Let out := compress_states dfas cls.

  Lemma out_nth k : nth_error out k = option_map (fun p => remap idx (fst p)) (nth_error kept k).
  Proof. unfold out, compress_states. rewrite nth_error_map. reflexivity. Qed.

  (* the new number of every state *)
  Lemma renumber : exists F : N -> N -> Prop,
    (forall c r r', F c r -> F c r' -> r = r') /\
    (forall c c' r, F c r -> F c' r -> c = c') /\
    (forall i, i < n -> exists r, aget idx i = Some r /\ F (class_of cls i) r) /\
    (forall c r, F c r -> exists i d, nth_error dfas (N.to_nat i) = Some d /\
        class_of cls i = c /\ nth_error out (N.to_nat r) = Some (remap idx d)) /\
    (forall k d, nth_error out k = Some d -> exists c, F c (N.of_nat k)) /\
    F (class_of cls 0) 0.
  Proof.
    destruct (choose_reps_spec cls dfas 0 (aof []) 0) as (F & F1 & F2 & F3 & F4 & F5 & F6).
    { intros c r H. rewrite aget_of in H. destruct (N.to_nat c); discriminate. }
    assert (He : forall c, aget (@aof N []) c = None).
    { intro c. rewrite aget_of. destruct (N.to_nat c); reflexivity. }
    fold reps in F4, F5, F6. fold kept in F5, F6.
    exists (fun c r => F c = Some r). split; [|split; [|split; [|split; [|split]]]].
    - intros; congruence.
    - intros c c' r H H'. apply (F2 c c' r H H' (He c)).
    - intros i Hi. destruct (state_at dfas i Hi) as [d Hd].
      destruct (F4 _ _ Hd) as (r & b & H1 & H2). exists r. rewrite N2Nat.id in H2. split; [|exact H2].
      unfold idx. rewrite aget_of. erewrite map_nth_error by exact H1. reflexivity.
    - intros c r H. destruct (F5 c r H (He c)) as (k & d & p & H1 & H2 & H3).
      exists (N.of_nat k), d. rewrite Nat2N.id. split; [exact H1|]. split; [exact H2|].
      rewrite out_nth. replace (N.to_nat r) with (N.to_nat (r - 0)) by lia. rewrite H3. reflexivity.
    - intros k d H. rewrite out_nth in H. destruct (nth_error kept k) as [[x p]|] eqn:E; [|discriminate].
      destruct (F6 k x p E) as (c & H1 & _). exists c. exact H1.
    - destruct (nth_error dfas 0) as [d|] eqn:E.
      2:{ destruct dfas; [congruence|discriminate]. }
      destruct (F4 _ _ E) as (r & b & H1 & H2). unfold reps in H1.
      destruct dfas as [|d0 ds]; [congruence|]. cbn [List.length choose_reps] in H1.
      rewrite He in H1. cbn [nth_error] in H1. injection H1 as <- <-. exact H2.
  Qed.

  Lemma compress_states_ok :
    out <> [] /\ (List.length out <= List.length dfas)%nat /\
    Forall (fun d => List.length (d_map d) = nt) out /\ closed_table (map d_map out) /\
    (forall w, after out 0 w = after dfas 0 w) /\
    (forall i j, i < N.of_nat (List.length out) -> j < N.of_nat (List.length out) ->
       same_behaviour out i j -> i = j).
  Proof.
    destruct renumber as (F & Ff & Fi & Fr & Fo & Fk & F0).
    destruct Hset as [(Hok & Hinit & Hbeh) Hst]. cbn [snd] in Hst.
    assert (Hout : forall i, i < n -> exists r i0 d0, aget idx i = Some r /\ F (class_of cls i) r /\
      nth_error dfas (N.to_nat i0) = Some d0 /\ class_of cls i0 = class_of cls i /\
      nth_error out (N.to_nat r) = Some (remap idx d0)).
    { intros i Hi. destruct (Fr i Hi) as (r & H1 & H2). destruct (Fo _ _ H2) as (i0 & d0 & H3 & H4 & H5).
      exists r, i0, d0. auto. }
    assert (Hwalk : forall w i r, i < n -> F (class_of cls i) r -> after out r w = after dfas i w).
    { induction w as [|t w IH]; intros i r Hi Hr; destruct (Hout i Hi) as (r' & i0 & d0 & _ & Hr' & Hd0 & Hc & Ho);
        rewrite (Ff _ _ _ Hr' Hr) in Ho; destruct (state_at dfas i Hi) as [d Hd].
      - unfold after. cbn [walk observe]. rewrite Ho, Hd. cbn [remap d_result d_attr]. f_equal.
        apply initial_compare_observe. eapply Hinit; eauto.
        eapply class_of_eq; eauto. eapply state_lt; eauto.
      - unfold after. cbn [walk]. rewrite (entry_at out r (remap idx d0) t Ho).
        rewrite (entry_at dfas i d t Hd). cbn [remap d_map]. rewrite nth_error_map.
        assert (E : aget cls i0 = aget cls i).
        { eapply class_of_eq; eauto. eapply state_lt; eauto. }
        pose proof (Hst i0 i d0 d Hd0 Hd E) as Hdest. unfold dest_classes in Hdest.
        apply (f_equal (fun l => nth_error l (N.to_nat t))) in Hdest.
        rewrite !nth_error_map in Hdest.
        destruct (nth_error (d_map d0) (N.to_nat t)) as [[x|]|] eqn:Ex,
                 (nth_error (d_map d) (N.to_nat t)) as [[y|]|] eqn:Ey;
          cbn [option_map] in Hdest |- *; try discriminate; try (rewrite !walk_none; reflexivity);
          try (injection Hdest; lia).
        injection Hdest as Hxy. 
        assert (Hx : x < n) by exact (dest_lt dfas Hclosed i0 d0 _ x Hd0 Ex).
        assert (Hy : y < n) by exact (dest_lt dfas Hclosed i d _ y Hd Ey).
        destruct (Fr x Hx) as (rx & H1 & H2). rewrite H1.
        apply (IH y rx Hy). replace (class_of cls y) with (class_of cls x) by lia. exact H2. }
    assert (Hn : 0 < n) by (unfold n; destruct dfas; [congruence|simpl; lia]).
    split; [|split; [|split; [|split; [|split]]]].
    - destruct (Fo _ _ F0) as (i & d & _ & _ & H). intro E. rewrite E in H. discriminate.
    - unfold out, compress_states. rewrite map_length.
      etransitivity; [apply filter_length_le|]. rewrite combine_length. lia.
    - apply Forall_forall. intros d Hd. apply In_nth_error in Hd. destruct Hd as [k Hk].
      destruct (Fk _ _ Hk) as [c Hc]. destruct (Fo _ _ Hc) as (i & d0 & H1 & _ & H3).
      rewrite Nat2N.id, Hk in H3. injection H3 as ->. cbn [remap d_map]. rewrite map_length.
      rewrite Forall_forall in Hlen. apply Hlen. eapply nth_error_In; eauto.
    - apply Forall_forall. intros row Hrow. apply in_map_iff in Hrow. destruct Hrow as (d & <- & Hd).
      apply In_nth_error in Hd. destruct Hd as [k Hk].
      destruct (Fk _ _ Hk) as [c Hc]. destruct (Fo _ _ Hc) as (i & d0 & H1 & _ & H3).
      rewrite Nat2N.id, Hk in H3. injection H3 as ->. cbn [remap d_map]. apply Forall_forall.
      intros e He. apply in_map_iff in He. destruct He as ([x|] & <- & Hx); [|exact I].
      apply In_nth_error in Hx. destruct Hx as [q Hq].
      assert (Lx : x < n) by exact (dest_lt dfas Hclosed i d0 q x H1 Hq).
      destruct (Fr x Lx) as (r & E & Fx). rewrite E. destruct (Fo _ _ Fx) as (j & dj & _ & _ & H).
      assert (N.to_nat r < List.length out)%nat by (apply nth_error_Some; congruence).
      rewrite map_length. lia.
    - intro w. apply Hwalk; assumption.
    - intros i j Hi Hj S.
      destruct (nth_error out (N.to_nat i)) as [di|] eqn:Ei; [|apply nth_error_None in Ei; lia].
      destruct (nth_error out (N.to_nat j)) as [dj|] eqn:Ej; [|apply nth_error_None in Ej; lia].
      destruct (Fk _ _ Ei) as [ci Fci]. destruct (Fk _ _ Ej) as [cj Fcj]. rewrite !N2Nat.id in *.
      destruct (Fo _ _ Fci) as (a & da & Ha & Ca & _). destruct (Fo _ _ Fcj) as (b & db & Hb & Cb & _).
      pose proof (state_lt _ _ _ Ha) as La. pose proof (state_lt _ _ _ Hb) as Lb.
      assert (E : class_of cls a = class_of cls b).
      { eapply class_of_eq; eauto. apply Hbeh; try assumption. intro w.
        rewrite <- (Hwalk w a i), <- (Hwalk w b j); try assumption; try congruence; apply S. }
      eapply Ff; [exact Fci|]. rewrite <- Ca, E, Cb. exact Fcj.
  Qed.
End Quotient.

(* C28: merging terminates, keeps what every string observes, and leaves no
   two states that no string tells apart. *)
Theorem compress_dfa_ok dfas nt :
  dfas <> [] -> Forall (fun d => List.length (d_map d) = nt) dfas ->
  closed_table (map d_map dfas) ->
  exists out, compress_dfa dfas = Ok out /\
    out <> [] /\ (List.length out <= List.length dfas)%nat /\
    Forall (fun d => List.length (d_map d) = nt) out /\ closed_table (map d_map out) /\
    (forall w, after out 0 w = after dfas 0 w) /\
    (forall i j, i < N.of_nat (List.length out) -> j < N.of_nat (List.length out) ->
       same_behaviour out i j -> i = j).
Proof.
  intros Hne Hlen Hc. destruct (split_loop dfas nt Hne Hlen Hc) as ([last cls] & E & S).
  exists (compress_states dfas cls). split.
  - unfold compress_dfa. destruct dfas; [congruence|]. rewrite E. reflexivity.
  - eapply compress_states_ok; eauto.
Qed.

(* every state of the result is one of the given states, redirected *)
Lemma compress_dfa_from dfas out : compress_dfa dfas = Ok out ->
  Forall (fun o => exists d, In d dfas /\ d_result o = d_result d /\ d_attr o = d_attr d) out.
Proof.
  unfold compress_dfa. destruct dfas as [|d0 l0] eqn:E0.
  - intro H. injection H as <-. constructor.
  - rewrite <- E0. destruct (loop _ _ _) as [?|[? cls]]; [discriminate|]. intro H. injection H as <-.
    apply Forall_forall. intros o Ho. unfold compress_states in Ho. apply in_map_iff in Ho.
    destruct Ho as ([d r] & <- & Hp). apply filter_In in Hp. destruct Hp as [Hp _].
    apply in_combine_l in Hp. exists d. auto.
Qed.

Lemma attributes_kept dfas nt out w :
  dfas <> [] -> Forall (fun d => List.length (d_map d) = nt) dfas -> closed_table (map d_map dfas) ->
  Forall (fun d => d_result d = None -> d_attr d = None) dfas ->
  compress_dfa dfas = Ok out -> attribute_after out w = attribute_after dfas w.
Proof.
  intros H1 H2 H3 H4 E. destruct (compress_dfa_ok dfas nt H1 H2 H3) as (out' & E' & _ & _ & _ & _ & K & _).
  rewrite E in E'. injection E' as <-. specialize (K w). unfold after, observe in K. unfold attribute_after.
  pose proof (compress_dfa_from dfas out E) as F. rewrite Forall_forall in F, H4.
  assert (A : forall x y, In x out -> In y dfas ->
    match d_result x with Some r => Some (r, d_attr x) | None => None end =
    match d_result y with Some r => Some (r, d_attr y) | None => None end -> d_attr x = d_attr y).
  { intros x y Hx Hy Q. destruct (F x Hx) as (d & Hd & R1 & R2). specialize (H4 d Hd) as H4d. specialize (H4 y Hy).
    destruct (d_result x) eqn:Ex, (d_result y) eqn:Ey; try congruence.
    rewrite R2, H4, H4d; congruence. }
  destruct (walk (map d_map out) (Some 0) w) as [i|], (walk (map d_map dfas) (Some 0) w) as [j|]; try reflexivity.
  - destruct (nth_error out (N.to_nat i)) as [x|] eqn:Ex, (nth_error dfas (N.to_nat j)) as [y|] eqn:Ey;
      try discriminate; [|reflexivity]. cbn [option_map]. f_equal. injection K as K.
    apply A; [eapply nth_error_In; eauto|eapply nth_error_In; eauto|exact K].
  - destruct (nth_error out (N.to_nat i)); [discriminate|reflexivity].
  - destruct (nth_error dfas (N.to_nat j)); [discriminate|reflexivity].
Qed.
