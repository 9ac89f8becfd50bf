(* The report. *)
From Coq Require Import String List NArith Bool Arith Sorted Lia.
From Verif Require Import Base TokData TokModel StreamModel StreamSpec ElideModel ElideSpec ElideProofs ElideProofs2.
Import ListNotations.
Open Scope list_scope.
Notation length := List.length.

Definition holds (t : tokbuf) (g : list reply) : Prop := forall i r, nth_error g i = Some r -> nth_error (t_buf t) i = Some (Some r).

Lemma omapM_ok {A B} (f : A -> outcome B) (h : A -> B) l : (forall a, In a l -> f a = Ok (h a)) -> omapM f l = Ok (map h l).
Proof.
  induction l as [|a l IH]; intro H; cbn [omapM map]; [reflexivity|].
  rewrite (H a (or_introl eq_refl)). cbn [obind]. rewrite IH by (intros; apply H; right; assumption). reflexivity.
Qed.
Lemma word_ok t g i r : holds t g -> nth_error g i = Some r -> omissible r = true -> word_at t i = Ok (word_of r).
Proof.
  intros Hh Hi Ho. unfold word_at. rewrite (get_ok _ _ _ (Hh i r Hi)). cbn [obind init].
  unfold omissible in Ho. unfold word_of. destruct (snd r) as [|x|]; try discriminate. destruct (dat x); try discriminate. reflexivity.
Qed.

Section Report.
  Variables (t : tokbuf) (g : list reply) (m : nat) (x : nat -> nat -> bool).
  Hypothesis Hh : holds t g.
  Hypothesis Hn : t_n t = S m.
  Hypothesis Hg : m < length g.
  Hypothesis Ho : forall i r, i < m -> nth_error g i = Some r -> omissible r = true.
  Hypothesis Hb : bits (t_conflicts t) (S m) x.
  Hypothesis Hd : x m m = false.
  Let words := map word_of (firstn m g).
  Let W (i : nat) : string := nth i words ""%string.

  Lemma words_length : length words = m.
  Proof. unfold words. rewrite map_length, firstn_length. lia. Qed.
  Lemma nth_firstn_lt {A} (l : list A) k i : i < k -> nth_error (firstn k l) i = nth_error l i.
  Proof. revert l i. induction k as [|k IH]; intros l i Hi; [lia|]. destruct l as [|a l], i as [|i]; cbn; auto. apply IH. lia. Qed.
  Lemma word_at_ok i : i < m -> word_at t i = Ok (W i).
  Proof.
    intro Hi. destruct (nth_error g i) as [r|] eqn:E; [|apply nth_error_None in E; lia].
    rewrite (word_ok t g i r Hh E (Ho i r Hi E)). f_equal. unfold W, words.
    symmetry. apply nth_error_nth. rewrite nth_error_map, nth_firstn_lt by exact Hi. rewrite E. reflexivity.
  Qed.
  Lemma map_nth_seq (l : list string) : forall p, map (fun i => nth i (p ++ l) ""%string) (seq (length p) (length l)) = l.
  Proof.
    induction l as [|a l IH]; intro p; cbn [length seq map]; [reflexivity|]. f_equal.
    - rewrite app_nth2, Nat.sub_diag by lia. reflexivity.
    - specialize (IH (p ++ [a])). rewrite app_length in IH. cbn [length] in IH. rewrite Nat.add_1_r, <- app_assoc in IH. exact IH.
  Qed.
  Lemma sequence_ok : sequence t = Ok words.
  Proof.
    unfold sequence. rewrite Hn. cbn [Nat.sub]. rewrite Nat.sub_0_r.
    rewrite (omapM_ok _ W) by (intros i Hi; apply in_seq in Hi; apply word_at_ok; lia).
    f_equal. pose proof (map_nth_seq words []) as E. cbn [app length] in E. rewrite words_length in E. exact E.
  Qed.

  Lemma shift_at_ok k j : k <= m -> j <= k -> shift_at (t_conflicts t) k j = Ok (top x k j).
  Proof.
    intro Hk. induction j as [|j IH]; intro Hj; cbn [shift_at top]; [reflexivity|].
    rewrite Hb by lia. cbn [obind]. destruct (x k j); [reflexivity|]. apply IH. lia.
  Qed.

  Definition emit (acc : list report) (p : list nat) : list report :=
    if Nat.ltb (length p) m then
      let acc := match acc with [] => [R_banner words] | _ => acc end in
      R_pattern (length acc) (map W p) :: acc
    else acc.
  Lemma show_ok : forall fuel k later prev acc, k <= m -> k < fuel -> Forall (fun i => i < m) later ->
    show_minimal fuel t k later prev acc = Ok (fold_left emit (chains x fuel k later prev) acc).
  Proof.
    induction fuel as [|fuel IH]; intros k later prev acc Hk Hf Hl; [lia|]. cbn [show_minimal chains].
    rewrite shift_at_ok by lia. cbn [obind]. destruct (top x k k) as [j|] eqn:Et.
    - destruct (top_some _ _ _ _ Et) as (Hj & _ & _).
      assert (Hin : forall i, In i (seq j (k - j)) -> i < k) by (intros i Hi; apply in_seq in Hi; lia).
      revert acc Hin. induction (seq j (k - j)) as [|i is IHs]; intros acc Hin; cbn [fold_left flat_map]; [reflexivity|].
      rewrite fold_left_app. cbn [obind].
      assert (Hik : i < k) by (apply Hin; left; reflexivity).
      destruct (Nat.leb prev i).
      + apply IHs. intros; apply Hin; right; assumption.
      + rewrite IH; [|lia|lia|constructor; [lia|exact Hl]]. apply IHs. intros; apply Hin; right; assumption.
    - rewrite Hn. cbn [Nat.sub]. rewrite Nat.sub_0_r. cbn [fold_left]. unfold emit. destruct (Nat.ltb (length later) m); [|reflexivity].
      assert (Hw : omapM (word_at t) later = Ok (map W later)).
      { apply omapM_ok. intros i Hi. apply word_at_ok. rewrite Forall_forall in Hl. apply Hl. exact Hi. }
      destruct acc as [|a acc].
      + rewrite sequence_ok. cbn [obind]. rewrite Hw. reflexivity.
      + cbn [obind]. rewrite Hw. reflexivity.
  Qed.

  Definition small (p : list nat) : bool := Nat.ltb (length p) m.
  Lemma numbered_app i a b : numbered i (a ++ b) = numbered i a ++ numbered (i + length a) b.
  Proof.
    revert i. induction a as [|w a IH]; intro i; cbn [app numbered length]; [rewrite Nat.add_0_r; reflexivity|].
    rewrite IH. cbn. repeat f_equal. lia.
  Qed.
  Lemma numbered_length i l : length (numbered i l) = length l.
  Proof. revert i. induction l as [|w l IH]; intro i; cbn; [reflexivity|]. rewrite IH. reflexivity. Qed.
  Definition shown (pats : list (list nat)) : list report :=
    (match pats with [] => [] | _ => [R_banner words] end) ++ numbered 1 (map (map W) pats).
  Lemma emit_shown : forall ps done, rev (fold_left emit ps (rev (shown done))) = shown (done ++ filter small ps).
  Proof.
    induction ps as [|p ps IH]; intro done; cbn [fold_left filter].
    - rewrite rev_involutive, app_nil_r. reflexivity.
    - assert (E : emit (rev (shown done)) p = rev (shown (done ++ (if small p then [p] else [])))).
      { unfold emit. fold (small p). destruct (small p); [|rewrite app_nil_r; reflexivity].
        assert (Es : shown (done ++ [p]) = (match done with [] => [R_banner words] | _ => shown done end) ++ [R_pattern (S (length done)) (map W p)]).
        { unfold shown. destruct done as [|d done]; [reflexivity|]. cbn [app map numbered]. rewrite map_app, numbered_app, map_length. cbn [map numbered app].
          replace (2 + length done) with (S (length (d :: done))) by (cbn; lia). reflexivity. }
        rewrite Es, rev_app_distr. cbn [rev app]. destruct done as [|d done]; [reflexivity|].
        assert (Hne : rev (shown (d :: done)) <> []).
        { unfold shown. cbn [app]. intro H. apply (f_equal (@length report)) in H. rewrite rev_length in H. discriminate. }
        destruct (rev (shown (d :: done))) as [|a l] eqn:El; [contradiction|]. f_equal.
        f_equal. rewrite <- El, rev_length. unfold shown. cbn [app length]. rewrite numbered_length, map_length. reflexivity. }
      rewrite E, IH. f_equal. rewrite <- app_assoc. f_equal. destruct (small p); reflexivity.
  Qed.

  Lemma any_ok : forall k i, i + k = S m -> any_set (t_conflicts t) m k i = Ok (existsb (x m) (seq i k)).
  Proof.
    induction k as [|k IH]; intros i Hi; cbn [any_set seq existsb]; [reflexivity|].
    rewrite Hb by lia. cbn [obind]. destruct (x m i); [reflexivity|]. apply IH. lia.
  Qed.

  Lemma said_ok : exists r,
    (do any <- any_set (t_conflicts t) (t_n t - 1) (t_n t) 0;
     if any then do l <- show_minimal (S (t_n t)) t (t_n t - 1) [] (t_n t) []; Ok (rev l)
     else if Nat.ltb 1 (t_n t) then do w <- sequence t; Ok [R_omit w] else Ok []) = Ok r /\ said (X x) words r.
  Proof.
    rewrite Hn. replace (S m - 1) with m by lia. rewrite any_ok by lia. cbn [obind].
    destruct (existsb (x m) (seq 0 (S m))) eqn:E.
    - assert (Hex : exists j, j < m /\ x m j = true).
      { apply existsb_exists in E. destruct E as (j & Hj & Hx). apply in_seq in Hj. exists j. split; [|exact Hx].
        destruct (Nat.eq_dec j m) as [->|]; [congruence|lia]. }
      destruct Hex as (j & Hj & Hx).
      rewrite show_ok by (try lia; constructor). cbn [obind]. eexists. split; [reflexivity|].
      pose proof (emit_shown (chains x (S (S m)) m [] (S m)) []) as Es. cbn [shown map numbered rev app] in Es. rewrite Es.
      destruct (chains_minimal x m) as (Hc & Hnd).
      unfold shown. apply s_patterns.
      + intro Hw. apply (f_equal (@length string)) in Hw. rewrite words_length in Hw. cbn in Hw. lia.
      + rewrite words_length. intro Hs. destruct (Hs m j (or_introl eq_refl) Hj Hx) as (i & [] & _).
      + apply NoDup_filter. exact Hnd.
      + intro l. rewrite words_length, filter_In, Hc. unfold small. rewrite Nat.ltb_lt. tauto.
    - assert (Hno : forall j, j <= m -> x m j = false).
      { intros j Hj. destruct (x m j) eqn:Ex; [|reflexivity]. assert (H : existsb (x m) (seq 0 (S m)) = true); [|congruence].
        apply existsb_exists. exists j. split; [apply in_seq; lia|exact Ex]. }
      destruct (Nat.ltb_spec 1 (S m)) as [Hlt|Hle].
      + rewrite sequence_ok. cbn [obind]. eexists. split; [reflexivity|]. apply s_omit.
        * intro Hw. apply (f_equal (@length string)) in Hw. rewrite words_length in Hw. cbn in Hw. lia.
        * rewrite words_length. intros k j [->|[]] Hj Hx. unfold X in Hx. rewrite Hno in Hx by lia. discriminate.
      + eexists. split; [reflexivity|]. apply s_nothing_to_omit. unfold words. replace m with 0 by lia. reflexivity.
  Qed.

  Lemma hazards_ok : exists rows, hazard_rows t = Ok rows /\ table (X x) m rows.
  Proof.
    exists (map (fun i => map (x i) (seq 0 i)) (seq 0 (S m))). split.
    - unfold hazard_rows. rewrite Hn. apply omapM_ok. intros i Hi. apply in_seq in Hi. apply omapM_ok.
      intros j Hj. apply in_seq in Hj. apply Hb; lia.
    - split; [rewrite map_length, seq_length; reflexivity|]. intros k Hk.
      assert (Eseq : forall a n k, k < n -> nth_error (seq a n) k = Some (a + k)).
      { clear. intros a n. revert a. induction n as [|n IH]; intros a k Hk; [lia|]. destruct k as [|k]; cbn; [f_equal; lia|]. rewrite IH by lia. f_equal. lia. }
      exists (map (x k) (seq 0 k)). rewrite nth_error_map, Eseq by lia. cbn [option_map plus]. split; [reflexivity|].
      split; [rewrite map_length, seq_length; reflexivity|].
      intros j Hj. rewrite nth_error_map, Eseq by lia. cbn. unfold X. split; [intro H; injection H; auto|intros ->; reflexivity].
  Qed.

  Lemma reporting_ok verbose : exists l, reporting verbose t = Ok l /\
    exists h r, l = h ++ r /\ said (X x) words r /\
      if verbose && Nat.ltb 0 m then exists rows, h = [R_hazards words rows] /\ table (X x) m rows else h = [].
  Proof.
    destruct said_ok as (r & Hr & Hs). destruct hazards_ok as (rows & Hrows & Htab).
    unfold reporting.
    assert (E : Nat.ltb 1 (t_n t) = Nat.ltb 0 m) by (rewrite Hn; reflexivity).
    set (v := if verbose && Nat.ltb 0 m then [R_hazards words rows] else []).
    assert (Ev : (if verbose && Nat.ltb 1 (t_n t) then do w <- sequence t; do h <- hazard_rows t; Ok [R_hazards w h] else Ok []) = Ok v).
    { rewrite E. unfold v. destruct (verbose && Nat.ltb 0 m); [|reflexivity]. rewrite sequence_ok. cbn [obind]. rewrite Hrows. reflexivity. }
    rewrite Ev. cbn [obind]. exists (v ++ r). split.
    - destruct (any_set (t_conflicts t) (t_n t - 1) (t_n t) 0) as [[]| | | |]; cbn [obind] in *; try discriminate.
      + destruct (show_minimal (S (t_n t)) t (t_n t - 1) [] (t_n t) []); cbn [obind] in *; try discriminate. injection Hr as <-. reflexivity.
      + destruct (Nat.ltb 1 (t_n t)).
        * destruct (sequence t); cbn [obind] in *; try discriminate. injection Hr as <-. reflexivity.
        * injection Hr as <-. rewrite app_nil_r. reflexivity.
    - exists v, r. split; [reflexivity|]. split; [exact Hs|]. unfold v. destruct (verbose && Nat.ltb 0 m); [eauto|reflexivity].
  Qed.
End Report.

(* only hazards in front of a word matter *)
Lemma sufficient_ext X Y m l : (forall k j, k <= m -> j < k -> (X k j <-> Y k j)) -> Forall (fun i => i < m) l -> sufficient X m l <-> sufficient Y m l.
Proof.
  intros E Hl.
  assert (Hk : forall k, k = m \/ In k l -> k <= m).
  { intros k [->|Hin]; [lia|]. rewrite Forall_forall in Hl. specialize (Hl k Hin). lia. }
  split; intros H k j Hin Hj Hx; (destruct (H k j Hin Hj) as (i & Hi); [apply E; auto|exists i; exact Hi]).
Qed.
Lemma minimal_ext X Y m l : (forall k j, k <= m -> j < k -> (X k j <-> Y k j)) -> Forall (fun i => i < m) l -> minimal X m l <-> minimal Y m l.
Proof.
  intros E Hl. unfold minimal. rewrite (sufficient_ext X Y m l E Hl). split; intros (H1 & H2); (split; [exact H1|]);
    intros l' Hs Hi Hsuf; (apply H2; [exact Hs|exact Hi|]); destruct Hs as (_ & Hf); apply (sufficient_ext X Y m l' E Hf); exact Hsuf.
Qed.
Lemma said_ext X Y words r : (forall k j, k <= length words -> j < k -> (X k j <-> Y k j)) -> said X words r -> said Y words r.
Proof.
  intros E H. destruct H as [Hw|Hw Hs|pats Hw Hs Hn Hp].
  - apply s_nothing_to_omit. exact Hw.
  - apply s_omit; [exact Hw|]. apply (sufficient_ext X Y _ [] E); [constructor|exact Hs].
  - apply s_patterns; [exact Hw| |exact Hn|].
    + intro H. apply Hs. apply (sufficient_ext X Y _ [] E); [constructor|exact H].
    + intro l. rewrite Hp. split; intros (A & B & C); (split; [exact A|]); (split; [|exact C]); destruct A as (_ & Hf);
        apply (minimal_ext X Y _ l E Hf); exact B.
Qed.
Lemma table_ext X Y m rows : (forall k j, k <= m -> j < k -> (X k j <-> Y k j)) -> table X m rows -> table Y m rows.
Proof.
  intros E (H1 & H2). split; [exact H1|]. intros k Hk. destruct (H2 k Hk) as (row & A & B & C). exists row. split; [exact A|]. split; [exact B|].
  intros j Hj. rewrite (C j Hj). apply E; assumption.
Qed.
