(* Proofs about the subset construction (C27). *)
From Coq Require Import String List Arith NArith Bool Lia.
From Coq Require Import ZifyBool ZifyN ZifyNat.
From Verif Require Import Base Arr DfaModel DfaSpec DfaTabProofs DfaMinProofs.
Import ListNotations.
Open Scope N_scope.

(* ---- bitmaps ------------------------------------------------------------ *)

Lemma pbits_spec : forall p i j,
  In j (pbits p i) <-> i <= j /\ N.testbit (Npos p) (j - i) = true.
Proof.
  induction p as [p IH|p IH|]; intros i j; cbn [pbits].
  - cbn [In]. rewrite IH. split.
    + intros [<-|[H1 H2]].
      * split; [lia|]. rewrite N.sub_diag. reflexivity.
      * split; [lia|]. replace (j - i) with (N.succ (j - N.succ i)) by lia.
        change (Npos p~1) with (2 * Npos p + 1). rewrite N.testbit_odd_succ by lia. exact H2.
    + intros [H1 H2]. destruct (N.eq_dec i j) as [E|E]; [left; exact E|right].
      split; [lia|]. replace (j - i) with (N.succ (j - N.succ i)) in H2 by lia.
      change (Npos p~1) with (2 * Npos p + 1) in H2. rewrite N.testbit_odd_succ in H2 by lia. exact H2.
  - rewrite IH. split.
    + intros [H1 H2]. split; [lia|]. replace (j - i) with (N.succ (j - N.succ i)) by lia.
      change (Npos p~0) with (2 * Npos p). rewrite N.testbit_even_succ by lia. exact H2.
    + intros [H1 H2]. destruct (N.eq_dec i j) as [E|E].
      * subst j. rewrite N.sub_diag in H2. discriminate.
      * split; [lia|]. replace (j - i) with (N.succ (j - N.succ i)) in H2 by lia.
        change (Npos p~0) with (2 * Npos p) in H2. rewrite N.testbit_even_succ in H2 by lia. exact H2.
  - cbn [In]. split.
    + intros [<-|[]]. split; [lia|]. rewrite N.sub_diag. reflexivity.
    + intros [H1 H2]. left. destruct (j - i) eqn:E; [lia|discriminate].
Qed.

Lemma bits_spec x j : In j (bits x) <-> N.testbit x j = true.
Proof.
  destruct x as [|p]; cbn [bits].
  - rewrite N.bits_0. split; [intros []|discriminate].
  - rewrite pbits_spec, N.sub_0_r. split; [tauto|]. intro H. split; [lia|exact H].
Qed.

Definition sub (a b : N) : Prop := forall j, N.testbit a j = true -> N.testbit b j = true.

Lemma sub_refl a : sub a a.
Proof. intros j H; exact H. Qed.
Lemma sub_trans a b c : sub a b -> sub b c -> sub a c.
Proof. intros H1 H2 j H; auto. Qed.
Lemma sub_lor_l a b : sub a (N.lor a b).
Proof. intros j H. rewrite N.lor_spec, H. reflexivity. Qed.
Lemma sub_lor_r a b : sub b (N.lor a b).
Proof. intros j H. rewrite N.lor_spec, H. apply orb_true_r. Qed.

Lemma word_spec x i k : N.testbit (word x i) k = (k <? 32) && N.testbit x (32 * i + k).
Proof.
  unfold word. rewrite N.land_spec, N.shiftr_spec by lia.
  destruct (N.ltb_spec k 32) as [H|H].
  - rewrite N.ones_spec_low by lia. rewrite andb_true_r. simpl. f_equal. lia.
  - rewrite N.ones_spec_high by lia. rewrite andb_false_r. reflexivity.
Qed.

Lemma in_word todo i j :
  In j (map (N.add (32 * i)) (bits (word todo i))) <->
  32 * i <= j < 32 * i + 32 /\ N.testbit todo j = true.
Proof.
  rewrite in_map_iff. split.
  - intros (k & <- & Hk). apply bits_spec in Hk. rewrite word_spec in Hk.
    apply andb_prop in Hk. destruct Hk as [H1 H2]. apply N.ltb_lt in H1. split; [lia|exact H2].
  - intros [H1 H2]. exists (j - 32 * i). split; [lia|]. apply bits_spec. rewrite word_spec.
    replace (32 * i + (j - 32 * i)) with j by lia. rewrite H2.
    assert (j - 32 * i < 32) by lia. apply N.ltb_lt in H. rewrite H. reflexivity.
Qed.

Lemma clear_word todo i j :
  N.testbit (N.ldiff todo (N.shiftl (N.ones 32) (32 * i))) j = true <->
  N.testbit todo j = true /\ ~ (32 * i <= j < 32 * i + 32).
Proof.
  rewrite N.ldiff_spec. destruct (N.testbit todo j); cbn [andb].
  - rewrite negb_true_iff. destruct (N.le_gt_cases (32 * i) j) as [H|H].
    + rewrite N.shiftl_spec_high' by exact H.
      destruct (N.lt_ge_cases (j - 32 * i) 32) as [H2|H2].
      * rewrite N.ones_spec_low by lia. split; [discriminate|]. intros [_ K]. exfalso. apply K. lia.
      * rewrite N.ones_spec_high by lia. split; [|reflexivity]. intros _. split; [reflexivity|lia].
    + rewrite N.shiftl_spec_low by exact H. split; [|reflexivity]. intros _. split; [reflexivity|lia].
  - split; [discriminate|]. intros [K _]. discriminate.
Qed.

Lemma round_up_spec n j : j < n -> j / 32 < round_up n.
Proof.
  intro H. unfold round_up. rewrite N.shiftr_div_pow2. change (2 ^ 5) with 32.
  apply N.div_lt_upper_bound; [lia|].
  pose proof (N.div_mod (n + 31) 32). pose proof (N.mod_lt (n + 31) 32). lia.
Qed.

(* ---- epsilon closure ------------------------------------------------------- *)

Definition eps (A : list nstate) (s s' : N) : Prop := path A s [] s'.

Lemma eps_refl A s : eps A s s.
Proof. constructor. Qed.

Lemma path_app A : forall s u s1, path A s u s1 -> forall v s2, path A s1 v s2 -> path A s (u ++ v) s2.
Proof.
  intros s u s1 H. induction H; intros v s3 K; cbn [app].
  - exact K.
  - eapply path_eps; eauto.
  - eapply path_tok; eauto.
Qed.

Lemma eps_trans A a b c : eps A a b -> eps A b c -> eps A a c.
Proof. intros H K. exact (path_app A a [] b H [] c K). Qed.

Definition row_of (rows : arr N) (j : N) : N := match aget rows j with Some r => r | None => 0 end.

Section Closure.
  Variable A : list nstate.
  Let n := N.of_nat (List.length A).
  Let nru := round_up n.

  Lemma eclo_fold : forall l row0 j,
    N.testbit (fold_left (fun row (t : option N * N) => match fst t with
                          | None => N.setbit row (snd t)
                          | Some _ => row
                          end) l row0) j = true <->
    N.testbit row0 j = true \/ In (None, j) l.
  Proof.
    induction l as [|[[t|] d] l IH]; intros row0 j; cbn [fold_left fst snd].
    - cbn [In]. tauto.
    - rewrite IH. cbn [In]. split; intros [H|H]; auto. destruct H as [H|H]; [discriminate|auto].
    - rewrite IH. rewrite N.setbit_eqb. cbn [In]. split.
      + intros [H|H]; auto. apply orb_prop in H. destruct H as [H|H]; auto.
        apply N.eqb_eq in H. subst. auto.
      + intros [H|[H|H]]; auto.
        * rewrite H, orb_true_r. auto.
        * injection H as ->. rewrite N.eqb_refl. auto.
  Qed.

  Lemma eclo_init_spec i s j :
    N.testbit (eclo_init i s) j = true <-> j = i \/ In (None, j) (n_trans s).
  Proof.
    unfold eclo_init. rewrite eclo_fold, N.setbit_eqb, N.bits_0, orb_false_r, N.eqb_eq.
    split; intros [H|H]; auto.
  Qed.

  Hypothesis Hwf : forall s st l d, nth_error A (N.to_nat s) = Some st -> In (l, d) (n_trans st) -> d < n.

  Lemma edge_lt s l d : edge A s l d -> d < n.
  Proof. intros (st & H1 & H2). eapply Hwf; eauto. Qed.

  Lemma path_lt s w s' : path A s w s' -> s < n -> s' < n.
  Proof. intro H. induction H; intro L; auto; apply IHpath; eapply edge_lt; eauto. Qed.

  (* rows that are sound and contain the immediate successors *)
  Definition rows_ok (rows : arr N) : Prop :=
    forall i, i < n ->
      (forall j, N.testbit (row_of rows i) j = true -> eps A i j) /\
      N.testbit (row_of rows i) i = true /\
      (forall j, edge A i None j -> N.testbit (row_of rows i) j = true).

  Section Row.
    Variable rows : arr N.
    Variable from : N.
    Hypothesis Hrows : rows_ok rows.
    Hypothesis Hfrom : from < n.

    Definition inner (row0 todo0 : N) (done : list N) (pend : N -> Prop) (st : N * N * bool) : Prop :=
      let '(row, todo, chg) := st in
      (forall j, N.testbit row j = true -> eps A from j) /\
      sub (row_of rows from) row /\ sub row0 row /\ sub todo row /\
      (forall j, pend j -> N.testbit row j = true) /\
      (forall j, N.testbit row j = true -> N.testbit todo j = true \/ pend j \/
         j = from \/ sub (row_of rows j) row) /\
      (chg = true -> exists j, N.testbit row j = true /\ N.testbit row0 j = false) /\
      (chg = false -> sub todo todo0 /\ forall i j, In i done -> 32 * i <= j < 32 * i + 32 -> N.testbit todo j = false).

    Lemma merge_row_inner row0 todo0 done (pend : N -> Prop) st j :
      inner row0 todo0 done pend st -> pend j ->
      inner row0 todo0 done (fun k => pend k /\ k <> j) (merge_row rows from st j).
    Proof.
      destruct st as [[row todo] chg]. unfold merge_row.
      intros (Hs & Hf & H0 & Ht & Hp & Hc & Hy & Hn) Pj.
      set (tm := if j =? from then row else match aget rows j with Some r => r | None => 0 end).
      assert (Hj : N.testbit row j = true) by auto.
      assert (Lj : j < n).
      { apply (path_lt from [] j); [apply Hs; exact Hj|exact Hfrom]. }
      assert (Etm : j <> from -> tm = row_of rows j).
      { intro H. unfold tm. apply N.eqb_neq in H. rewrite H. reflexivity. }
      assert (Htm : forall k, N.testbit tm k = true -> eps A from k).
      { intros k Hk. unfold tm in Hk. destruct (N.eqb_spec j from); [auto|].
        eapply eps_trans; [apply Hs; exact Hj|]. apply (Hrows j Lj). exact Hk. }
      set (diffs := N.ldiff tm row).
      assert (Hd : forall k, N.testbit diffs k = true <-> N.testbit tm k = true /\ N.testbit row k = false).
      { intro k. unfold diffs. rewrite N.ldiff_spec, andb_true_iff, negb_true_iff. tauto. }
      cbn [inner]. repeat split.
      - intros k Hk. rewrite N.lor_spec in Hk. apply orb_prop in Hk. destruct Hk; auto.
      - eapply sub_trans; [exact Hf|apply sub_lor_l].
      - eapply sub_trans; [exact H0|apply sub_lor_l].
      - intros k Hk. rewrite N.lor_spec in Hk |- *. apply orb_prop in Hk. destruct Hk as [Hk|Hk].
        + rewrite (Ht k Hk). reflexivity.
        + apply Hd in Hk. destruct Hk as [Hk _]. rewrite Hk. apply orb_true_r.
      - intros k [Hk _]. rewrite N.lor_spec, (Hp k Hk). reflexivity.
      - intros k Hk. rewrite N.lor_spec in Hk.
        destruct (N.testbit row k) eqn:Ek.
        + destruct (Hc k Ek) as [H|[H|[H|H]]].
          * left. rewrite N.lor_spec, H. reflexivity.
          * destruct (N.eq_dec k j) as [->|Hkj]; [|right; left; auto].
            destruct (N.eq_dec j from) as [Hjf|Hjf]; [auto|].
            right. right. right. rewrite <- (Etm Hjf). apply sub_lor_r.
          * auto.
          * right. right. right. eapply sub_trans; [exact H|apply sub_lor_l].
        + left. rewrite N.lor_spec. simpl in Hk. rewrite (proj2 (Hd k)) by auto. apply orb_true_r.
      - intro H. apply orb_prop in H. destruct H as [H|H].
        + destruct (Hy H) as (k & K1 & K2). exists k. rewrite N.lor_spec, K1. auto.
        + apply negb_true_iff, N.eqb_neq in H.
          assert (exists k, N.testbit diffs k = true) as (k & Hk).
          { exists (N.log2 diffs). apply N.bit_log2. exact H. }
          apply Hd in Hk. destruct Hk as [K1 K2]. exists k. rewrite N.lor_spec, K1, orb_true_r.
          split; [reflexivity|]. destruct (N.testbit row0 k) eqn:E; [|reflexivity].
          apply H0 in E. congruence.
      - apply orb_false_elim in H. destruct H as [Hchg Hz]. apply negb_false_iff, N.eqb_eq in Hz.
        rewrite Hz, N.lor_0_r. apply (Hn Hchg).
      - apply orb_false_elim in H. destruct H as [Hchg Hz]. apply negb_false_iff, N.eqb_eq in Hz.
        rewrite Hz, N.lor_0_r. apply (Hn Hchg).
    Qed.

    Lemma inner_pend row0 todo0 done (P Q : N -> Prop) st :
      (forall k, P k <-> Q k) -> inner row0 todo0 done P st -> inner row0 todo0 done Q st.
    Proof.
      intros E. destruct st as [[row todo] chg]. intros (Hs & Hf & H0 & Ht & Hp & Hc & Hy & Hn).
      cbn [inner]. split; [exact Hs|]. split; [exact Hf|]. split; [exact H0|]. split; [exact Ht|].
      split; [intros j Hj; apply Hp, E; exact Hj|]. split; [|auto].
      intros j Hj. destruct (Hc j Hj) as [H|[H|[H|H]]]; auto. apply E in H. auto.
    Qed.

    Lemma merge_rows_inner row0 todo0 done : forall l st, NoDup l ->
      inner row0 todo0 done (fun k => In k l) st ->
      inner row0 todo0 done (fun _ => False) (fold_left (merge_row rows from) l st).
    Proof.
      induction l as [|j l IH]; intros st Hn Hi; cbn [fold_left].
      - eapply inner_pend; [|exact Hi]. intro k; cbn; tauto.
      - inversion Hn; subst. apply IH; [assumption|].
        eapply inner_pend; [|apply merge_row_inner; [exact Hi|left; reflexivity]].
        intro k. cbn. split.
        + intros [[H|H] Hne]; [congruence|exact H].
        + intro H. split; [auto|]. intros ->. contradiction.
    Qed.

    Lemma pbits_nodup : forall p i, NoDup (pbits p i).
    Proof.
      induction p as [p IH|p IH|]; intro i; cbn [pbits]; [|apply IH|].
      - constructor; [|apply IH]. intro H. apply pbits_spec in H. lia.
      - constructor; [intros []|constructor].
    Qed.

    Lemma bits_nodup x : NoDup (bits x).
    Proof. destruct x; [constructor|apply pbits_nodup]. Qed.

    Lemma close_word_eq row todo chg i :
      close_word rows from (row, todo, chg) i =
      fold_left (merge_row rows from) (map (N.add (32 * i)) (bits (word todo i)))
        (row, N.ldiff todo (N.shiftl (N.ones 32) (32 * i)), chg).
    Proof.
      unfold close_word. assert (Z : word todo i = 0 ->
        (row, todo, chg) = fold_left (merge_row rows from) (map (N.add (32 * i)) (bits (word todo i)))
        (row, N.ldiff todo (N.shiftl (N.ones 32) (32 * i)), chg)).
      { intro E. rewrite E. cbn [bits map fold_left]. f_equal. f_equal. apply N.bits_inj. intro j.
        destruct (N.testbit (N.ldiff todo (N.shiftl (N.ones 32) (32 * i))) j) eqn:Ej.
        - apply clear_word in Ej. tauto.
        - destruct (N.testbit todo j) eqn:Et; [|reflexivity]. exfalso.
          assert (D : 32 * i <= j < 32 * i + 32 \/ ~ 32 * i <= j < 32 * i + 32) by lia.
          destruct D as [D|D].
          + assert (In j (map (N.add (32 * i)) (bits (word todo i)))) as H by (apply in_word; auto).
            rewrite E in H. destruct H.
          + assert (H : N.testbit (N.ldiff todo (N.shiftl (N.ones 32) (32 * i))) j = true) by (apply clear_word; auto).
            congruence. }
      destruct (N.eqb_spec todo 0) as [T|T].
      - apply Z. rewrite T. unfold word. rewrite N.shiftr_0_l. reflexivity.
      - destruct (N.eqb_spec (word todo i) 0) as [E|E]; [apply Z; exact E|reflexivity].
    Qed.

    Lemma close_word_inner row0 todo0 done st i :
      inner row0 todo0 done (fun _ => False) st ->
      inner row0 todo0 (i :: done) (fun _ => False) (close_word rows from st i).
    Proof.
      destruct st as [[row todo] chg]. intros (Hs & Hf & H0 & Ht & Hp & Hc & Hy & Hn).
      rewrite close_word_eq. apply merge_rows_inner.
      - apply FinFun.Injective_map_NoDup; [intros a b; lia|apply bits_nodup].
      - cbn [inner]. split; [exact Hs|]. split; [exact Hf|]. split; [exact H0|]. split; [|split; [|split; [|split]]].
        + intros j Hj. apply clear_word in Hj. apply Ht. tauto.
        + intros j Hj. apply in_word in Hj. apply Ht. tauto.
        + intros j Hj. destruct (Hc j Hj) as [H|[[]|[H|H]]]; auto.
          assert (Dec : 32 * i <= j < 32 * i + 32 \/ ~ 32 * i <= j < 32 * i + 32).
          { lia. }
          destruct Dec as [D|D].
          * right. left. apply in_word. auto.
          * left. apply clear_word. auto.
        + exact Hy.
        + intro Hch. destruct (Hn Hch) as [N1 N2]. split.
          * intros j Hj. apply clear_word in Hj. apply N1. tauto.
          * intros k j [<-|Hk] Hr.
            -- destruct (N.testbit _ j) eqn:E; [|reflexivity]. apply clear_word in E. tauto.
            -- destruct (N.testbit (N.ldiff _ _) j) eqn:E; [|reflexivity]. apply clear_word in E.
               rewrite (N2 k j Hk Hr) in E. destruct E; discriminate.
    Qed.

    Lemma close_words_inner row0 todo0 : forall l done st,
      inner row0 todo0 done (fun _ => False) st ->
      inner row0 todo0 (rev l ++ done) (fun _ => False) (fold_left (close_word rows from) l st).
    Proof.
      induction l as [|i l IH]; intros done st H; cbn [fold_left rev app]; [exact H|].
      rewrite <- app_assoc. apply IH. apply close_word_inner. exact H.
    Qed.

    (* between two passes *)
    Definition outer (st : N * N) : Prop :=
      let '(row, todo) := st in
      (forall j, N.testbit row j = true -> eps A from j) /\
      sub (row_of rows from) row /\ sub todo row /\
      (forall j, N.testbit row j = true -> N.testbit todo j = true \/ j = from \/ sub (row_of rows j) row).

    (* how many states are not yet in the row *)
    Definition missing (row : N) : N :=
      N.of_nat (List.length (filter (fun j => negb (N.testbit row j)) (upto n))).

    Lemma filter_le {B} (f g : B -> bool) l : (forall x, In x l -> f x = true -> g x = true) ->
      (List.length (filter f l) <= List.length (filter g l))%nat.
    Proof.
      intro H. induction l as [|x l IH]; [apply le_n|]. cbn [filter].
      assert (IH' := IH (fun y Hy => H y (or_intror Hy))).
      pose proof (H x (or_introl eq_refl)) as Hx.
      destruct (f x), (g x); simpl; try lia; discriminate Hx; reflexivity.
    Qed.

    Lemma filter_lt {B} (f g : B -> bool) l y : (forall x, In x l -> f x = true -> g x = true) ->
      In y l -> f y = false -> g y = true ->
      (List.length (filter f l) < List.length (filter g l))%nat.
    Proof.
      intro H. induction l as [|x l IH]; intros [] Hf Hg; cbn [filter].
      - subst x. rewrite Hf, Hg. simpl.
        pose proof (filter_le f g l (fun y Hy => H y (or_intror Hy))). lia.
      - specialize (IH (fun y Hy => H y (or_intror Hy)) H0 Hf Hg).
        pose proof (H x (or_introl eq_refl)) as Hx.
        destruct (f x), (g x); simpl; try lia; discriminate Hx; reflexivity.
    Qed.

    Lemma close_pass_ok row todo : outer (row, todo) ->
      match close_pass nru rows from (row, todo) with
      | inl st => outer st /\ missing (fst st) < missing row
      | inr r => forall j, N.testbit r j = true <-> eps A from j
      end.
    Proof.
      intros (Hs & Hf & Ht & Hc). unfold close_pass.
      assert (I0 : inner row todo [] (fun _ => False) (row, todo, false)).
      { cbn [inner]. split; [exact Hs|]. split; [exact Hf|]. split; [apply sub_refl|]. split; [exact Ht|].
        split; [intros j []|]. split.
        - intros j Hj. destruct (Hc j Hj) as [H|[H|H]]; auto.
        - split; [discriminate|]. intros _. split; [apply sub_refl|]. intros i j []. }
      apply (close_words_inner row todo (upto nru)) in I0.
      destruct (fold_left (close_word rows from) (upto nru) (row, todo, false)) as [[row' todo'] chg].
      destruct I0 as (Hs' & Hf' & H0' & Ht' & _ & Hc' & Hy & Hn).
      destruct chg.
      - split.
        + cbn [outer]. split; [exact Hs'|]. split; [exact Hf'|]. split; [exact Ht'|].
          intros j Hj. destruct (Hc' j Hj) as [H|[[]|[H|H]]]; auto.
        + cbn [fst]. destruct (Hy eq_refl) as (j & J1 & J2). unfold missing.
          assert (Lj : j < n) by (apply (path_lt from [] j); [apply Hs'; exact J1|exact Hfrom]).
          assert ((List.length (filter (fun j => negb (N.testbit row' j)) (upto n)) <
                   List.length (filter (fun j => negb (N.testbit row j)) (upto n)))%nat); [|lia].
          apply (filter_lt _ _ _ j).
          * intros x _ Hx. apply negb_true_iff in Hx. apply negb_true_iff.
            destruct (N.testbit row x) eqn:E; [|reflexivity]. apply H0' in E. congruence.
          * apply upto_in. exact Lj.
          * rewrite J1. reflexivity.
          * rewrite J2. reflexivity.
      - destruct (Hn eq_refl) as [N1 N2].
        assert (Hz : forall j, j < n -> N.testbit todo' j = false).
        { intros j Lj. apply (N2 (j / 32)).
          - rewrite app_nil_r. apply in_rev. rewrite rev_involutive. apply upto_in.
            apply round_up_spec. exact Lj.
          - pose proof (N.div_mod j 32). pose proof (N.mod_lt j 32). lia. }
        intro j. split; [apply Hs'|].
        assert (G : forall s w s', path A s w s' -> w = [] -> s < n -> N.testbit row' s = true ->
                     N.testbit row' s' = true).
        { intros s w s' Hp. induction Hp; intros Ew Ls Hb; [exact Hb| |discriminate].
          apply IHHp; [exact Ew|eapply edge_lt; eauto|].
          destruct (Hc' s Hb) as [K|[[]|[K|K]]].
          - rewrite Hz in K by exact Ls. discriminate.
          - subst s. apply Hf'. apply (Hrows from Hfrom). exact H.
          - apply K. apply (Hrows s Ls). exact H. }
        intro E. eapply (G from [] j); eauto. apply Hf'. exact (proj1 (proj2 (Hrows from Hfrom))).
    Qed.

    Lemma missing_le row : missing row <= n.
    Proof.
      unfold missing. pose proof (filter_length_le (fun j => negb (N.testbit row j)) (upto n)).
      rewrite upto_length in H. lia.
    Qed.

    Lemma close_row_ok : exists r,
      close_row n (Ok rows) from = Ok (aset rows from r) /\
      (forall j, N.testbit r j = true <-> eps A from j).
    Proof.
      unfold close_row. cbn [obind]. fold (row_of rows from). fold nru.
      assert (O0 : outer (row_of rows from, row_of rows from)).
      { cbn [outer]. split; [apply (Hrows from Hfrom)|]. split; [apply sub_refl|].
        split; [apply sub_refl|]. auto. }
      destruct (loop_measure (close_pass nru rows from) outer (fun st => missing (fst st)) (N.succ_pos n)
                 (row_of rows from, row_of rows from)) as [r Er].
      - intros [row todo] s' O E. pose proof (close_pass_ok row todo O) as K. rewrite E in K. exact K.
      - exact O0.
      - rewrite N.succ_pos_spec. cbn [fst]. pose proof (missing_le (row_of rows from)). lia.
      - exists r. rewrite Er. split; [reflexivity|].
        pose proof (loop_inv (close_pass nru rows from) outer
                      (fun r => forall j, N.testbit r j = true <-> eps A from j)) as L.
        specialize (L ltac:(intros [row todo] s' O E; pose proof (close_pass_ok row todo O) as K;
                            rewrite E in K; exact (proj1 K))
                      ltac:(intros [row todo] s' O E; pose proof (close_pass_ok row todo O) as K;
                            rewrite E in K; exact K)
                      (N.succ_pos n) _ O0).
        rewrite Er in L. exact L.
    Qed.
  End Row.

  Lemma close_rows_ok : forall l rows, (forall i, In i l -> i < n) -> rows_ok rows ->
    exists rows', fold_left (close_row n) l (Ok rows) = Ok rows' /\ rows_ok rows' /\
      (forall i, In i l -> forall j, N.testbit (row_of rows' i) j = true <-> eps A i j) /\
      (forall i, ~ In i l -> aget rows' i = aget rows i).
  Proof.
    induction l as [|i l IH]; intros rows Hl Hr; cbn [fold_left].
    - exists rows. split; [reflexivity|]. split; [exact Hr|]. split; [intros i []|auto].
    - assert (Li : i < n) by (apply Hl; left; reflexivity).
      destruct (close_row_ok rows i Hr Li) as (r & E & Hx). rewrite E.
      assert (Hset : forall k, row_of (aset rows i r) k = if k =? i then r else row_of rows k).
      { intro k. unfold row_of. rewrite aget_set. destruct (k =? i); reflexivity. }
      destruct (IH (aset rows i r)) as (rows' & E' & Hok & Hex & Hother).
      + intros k Hk. apply Hl. right. exact Hk.
      + intros k Lk. rewrite Hset. destruct (N.eqb_spec k i) as [->|Hne]; [|apply Hr; exact Lk].
        split; [apply Hx|]. split; [apply Hx; apply eps_refl|].
        intros j Hj. apply Hx. eapply path_eps; [exact Hj|constructor].
      + exists rows'. split; [exact E'|]. split; [exact Hok|]. split.
        * intros k [<-|Hk] j; [|apply Hex; exact Hk].
          destruct (in_dec N.eq_dec i l) as [Hin|Hin]; [apply Hex; exact Hin|].
          unfold row_of. rewrite (Hother i Hin), aget_set_same. apply Hx.
        * intros k Hk. rewrite Hother by (intro; apply Hk; right; assumption).
          apply aget_set_other. intros ->. apply Hk. left. reflexivity.
  Qed.

  (* the closure computed is reachability by empty moves *)
  Lemma epsilon_closure_ok : exists eclo,
    epsilon_closure A = Ok eclo /\
    forall i j, i < n -> (N.testbit (row_of eclo i) j = true <-> eps A i j).
  Proof.
    unfold epsilon_closure. fold n.
    set (rows := aof (map (fun p => eclo_init (fst p) (snd p)) (combine (upto n) A))).
    assert (Hrow : forall i s, nth_error A (N.to_nat i) = Some s -> row_of rows i = eclo_init i s).
    { intros i s H. unfold row_of, rows. rewrite aget_of.
      erewrite map_nth_error; [|apply combine_nth_error; split; [apply upto_nth|exact H]].
      - cbn [fst snd]. rewrite N2Nat.id. reflexivity.
      - unfold n. assert (N.to_nat i < List.length A)%nat by (apply nth_error_Some; congruence). lia. }
    destruct (close_rows_ok (upto n) rows) as (eclo & E & _ & Hex & _).
    - intros i Hi. apply upto_in in Hi. exact Hi.
    - intros i Li. destruct (nth_error A (N.to_nat i)) as [s|] eqn:Es.
      2:{ apply nth_error_None in Es. unfold n in Li. lia. }
      rewrite (Hrow i s Es). split; [|split].
      + intros j Hj. apply eclo_init_spec in Hj. destruct Hj as [->|Hj]; [apply eps_refl|].
        eapply path_eps; [exists s; eauto|constructor].
      + apply eclo_init_spec. auto.
      + intros j (s' & Hs' & Hj). rewrite Es in Hs'. injection Hs' as <-. apply eclo_init_spec. auto.
    - exists eclo. split; [exact E|]. intros i j Li. apply Hex. apply upto_in. exact Li.
  Qed.
End Closure.
