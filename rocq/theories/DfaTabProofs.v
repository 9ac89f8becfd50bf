(* Proofs about table compression and the emitted lookup routine (C29). *)
From Coq Require Import String List Arith NArith Bool Lia Sorted ZifyBool ZifyN ZifyNat.
From Verif Require Import Base Arr DfaModel DfaSpec.
Import ListNotations.
Open Scope N_scope.

(* ---- small facts ------------------------------------------------------ *)

Lemma upto_from_length n : forall i, List.length (upto_from i n) = n.
Proof. induction n; intros; simpl; auto. Qed.

Lemma upto_length n : List.length (upto n) = N.to_nat n.
Proof. apply upto_from_length. Qed.

Lemma upto_from_nth n : forall i k, (k < n)%nat ->
  nth_error (upto_from i n) k = Some (i + N.of_nat k).
Proof.
  induction n; intros i k H; [lia|]. destruct k; cbn [upto_from nth_error].
  - f_equal; lia.
  - rewrite IHn by lia. f_equal; lia.
Qed.

Lemma upto_nth n k : (k < N.to_nat n)%nat -> nth_error (upto n) k = Some (N.of_nat k).
Proof. intro H. unfold upto. rewrite upto_from_nth by exact H. f_equal; lia. Qed.

Lemma upto_from_in n : forall i k, In k (upto_from i n) <-> i <= k < i + N.of_nat n.
Proof.
  induction n; intros i k; cbn [upto_from In].
  - lia.
  - rewrite IHn. lia.
Qed.

Lemma upto_in n k : In k (upto n) <-> k < n.
Proof. unfold upto. rewrite upto_from_in. lia. Qed.

Lemma combine_nth_error {A B} (l : list A) : forall (l' : list B) k x y,
  nth_error (combine l l') k = Some (x, y) <->
  nth_error l k = Some x /\ nth_error l' k = Some y.
Proof.
  induction l as [|a l IH]; intros [|b l'] k x y; destruct k; simpl;
    try (split; [discriminate|intros [? ?]; discriminate]).
  - split; [intro H; inversion H; auto|intros [H1 H2]; congruence].
  - apply IH.
Qed.

Lemma opt_eqb_eq a b : opt_eqb a b = true <-> a = b.
Proof.
  destruct a, b; simpl; try rewrite N.eqb_eq; split; intro H; try congruence; auto.
Qed.

(* ---- bisection ---------------------------------------------------------- *)

(* tokens in positions [l, h) of the token array are strictly ascending *)
Definition ascending (tok : arr N) (l h : N) : Prop :=
  forall i j, l <= i -> i < j -> j < h ->
    exists a b, aget tok i = Some a /\ aget tok j = Some b /\ a < b.

Definition filled (tok : arr N) (l h : N) : Prop :=
  forall i, l <= i < h -> exists a, aget tok i = Some a.

Lemma bisect_inv tok t l0 h0 p :
  filled tok l0 h0 -> ascending tok l0 h0 ->
  l0 <= h0 -> h0 < Npos p ->
  exists r, loop (bisect_step tok t) p (l0, h0) = inr (Ok r) /\
    match r with
    | Some m => l0 <= m < h0 /\ aget tok m = Some t
    | None => forall i, l0 <= i < h0 -> aget tok i <> Some t
    end.
Proof.
  intros Hf Ha Hle Hp.
  set (I := fun lh : N * N => l0 <= fst lh /\ fst lh <= snd lh /\ snd lh <= h0 /\
     (forall i, l0 <= i < fst lh -> aget tok i <> Some t) /\
     (forall i, snd lh <= i < h0 -> aget tok i <> Some t)).
  set (Q := fun r : outcome (option N) => exists o, r = Ok o /\
     match o with
     | Some m => l0 <= m < h0 /\ aget tok m = Some t
     | None => forall i, l0 <= i < h0 -> aget tok i <> Some t
     end).
  assert (I0 : I (l0, h0)).
  { unfold I; simpl. repeat split; try lia; intros; lia. }
  assert (Hs : forall s s', I s -> bisect_step tok t s = inl s' ->
                 I s' /\ (snd s' - fst s' < snd s - fst s)).
  { intros [l h] s' (I1 & I2 & I3 & I4 & I5) E. cbn [fst snd] in *. unfold bisect_step in E; cbv zeta in E.
    destruct (N.ltb_spec l h) as [Hlh|Hlh]; [|discriminate].
    set (m := N.shiftr (h + l) 1) in *.
    assert (Em : m = (h + l) / 2) by (unfold m; rewrite N.shiftr_div_pow2; reflexivity).
    assert (Hm : l <= m < h).
    { rewrite Em. pose proof (N.div_mod' (h + l) 2). pose proof (N.mod_lt (h + l) 2). lia. }
    destruct (aget tok m) as [xm|] eqn:Ex; [|discriminate].
    destruct (N.eqb_spec xm t) as [|Hxt]; [discriminate|].
    destruct (N.eqb_spec m l) as [|Hml]; [discriminate|].
    destruct (N.ltb_spec t xm) as [Ht|Ht]; injection E as <-; unfold I; simpl.
    - repeat split; try lia; try exact I4.
      intros i Hi. destruct (N.eq_dec i m) as [->|Hn].
      + rewrite Ex. congruence.
      + destruct (N.lt_ge_cases i h) as [Hih|Hih]; [|apply I5; lia].
        destruct (Ha m i) as (a & b & A1 & A2 & A3); try lia.
        intro Q1. assert (a = xm) by congruence. assert (b = t) by congruence. lia.
    - repeat split; try lia; try exact I5.
      intros i Hi. destruct (N.lt_ge_cases i l) as [Hil|Hil]; [apply I4; lia|].
      destruct (Ha i m) as (a & b & A1 & A2 & A3); try lia.
      intro Q1. assert (b = xm) by congruence. assert (a = t) by congruence. lia. }
  destruct (loop_measure (bisect_step tok t) I (fun lh => snd lh - fst lh) p (l0, h0)) as [r Er].
  - exact Hs.
  - exact I0.
  - simpl. lia.
  - pose proof (loop_inv (bisect_step tok t) I Q (fun s s' Is E => proj1 (Hs s s' Is E))) as K.
    assert (HQ : forall s r, I s -> bisect_step tok t s = inr r -> Q r).
    { clear - Hf Ha. intros [l h] r (I1 & I2 & I3 & I4 & I5) E. cbn [fst snd] in *. unfold bisect_step in E; cbv zeta in E.
      destruct (N.ltb_spec l h) as [Hlh|Hlh].
      - set (m := N.shiftr (h + l) 1) in *.
        assert (Em : m = (h + l) / 2) by (unfold m; rewrite N.shiftr_div_pow2; reflexivity).
        assert (Hm : l <= m < h).
        { rewrite Em. pose proof (N.div_mod' (h + l) 2). pose proof (N.mod_lt (h + l) 2). lia. }
        destruct (aget tok m) as [xm|] eqn:Ex.
        + destruct (N.eqb_spec xm t) as [->|Hxt].
          * injection E as <-. exists (Some m). split; [reflexivity|]. split; [lia|exact Ex].
          * destruct (N.eqb_spec m l) as [Hml|Hml].
            -- injection E as <-. exists None. split; [reflexivity|].
               intros i Hi. destruct (N.lt_ge_cases i l); [apply I4; lia|].
               destruct (N.lt_ge_cases i h); [|apply I5; lia].
               assert (i = m) as ->.
               { rewrite Em in *. pose proof (N.div_mod' (h + l) 2).
                 pose proof (N.mod_lt (h + l) 2). lia. }
               rewrite Ex. congruence.
            -- destruct (t <? xm); discriminate.
        + exfalso. destruct (Hf m) as [a Ea]; [lia|]. congruence.
      - injection E as <-. exists None. split; [reflexivity|].
        intros i Hi. destruct (N.lt_ge_cases i l); [apply I4; lia|apply I5; lia]. }
    specialize (K HQ p (l0, h0) I0). rewrite Er in K. destruct K as (o & -> & Ho).
    exists o. split; [exact Er|exact Ho].
Qed.

Lemma bisect_ok tok t l h :
  filled tok l h -> ascending tok l h -> l <= h ->
  exists r, bisect tok t l h = Ok r /\
    match r with
    | Some m => l <= m < h /\ aget tok m = Some t
    | None => forall i, l <= i < h -> aget tok i <> Some t
    end.
Proof.
  intros Hf Ha Hl.
  destruct (bisect_inv tok t l h (N.succ_pos h) Hf Ha Hl) as (r & Er & Hr).
  - destruct h; simpl; lia.
  - exists r. unfold bisect. rewrite Er. split; [reflexivity|exact Hr].
Qed.

(* ---- default states -------------------------------------------------- *)

(* what find_defaults guarantees: rows are kept, a default row is an earlier row
   that has no default itself *)
Definition good_rows (crows : list crow) : Prop :=
  forall i r j, nth_error crows i = Some r -> c_def r = Some j ->
    (N.to_nat j < i)%nat /\
    exists r', nth_error crows (N.to_nat j) = Some r' /\ c_def r' = None.

Lemma consider_in m tc tsi : forall earlier best,
  (forall j, fst best = Some j -> exists r, In (j, r) earlier /\ c_def r = None) ->
  forall cand, In cand earlier ->
  forall j, fst (consider m tc tsi best cand) = Some j ->
    exists r, In (j, r) earlier /\ c_def r = None.
Proof.
  intros earlier best Hb [j0 r0] Hin j E. unfold consider in E.
  destruct (c_def r0) eqn:D; [apply Hb; exact E|].
  destruct (snd best <=? _); [apply Hb; exact E|].
  destruct (tc <=? _); [apply Hb; exact E|].
  destruct (_ && _); [|apply Hb; exact E].
  injection E as <-. exists r0. auto.
Qed.

Lemma fold_consider m tc tsi earlier : forall l best,
  incl l earlier ->
  (forall j, fst best = Some j -> exists r, In (j, r) earlier /\ c_def r = None) ->
  forall j, fst (fold_left (consider m tc tsi) l best) = Some j ->
    exists r, In (j, r) earlier /\ c_def r = None.
Proof.
  induction l as [|c l IH]; intros best Hl Hb j E; cbn [fold_left] in E; [apply Hb; exact E|].
  apply (IH (consider m tc tsi best c)); [|intros k Ek|exact E].
  - intros x Hx. apply Hl. right. exact Hx.
  - apply (consider_in m tc tsi earlier best Hb c); [apply Hl; left; reflexivity|exact Ek].
Qed.

Lemma find_defaults_map nt : forall maps earlier i,
  map c_map (find_defaults nt earlier i maps) = maps.
Proof.
  induction maps as [|m maps IH]; intros; simpl; [reflexivity|]. rewrite IH. reflexivity.
Qed.

Lemma find_defaults_good nt : forall maps pre earlier,
  earlier = combine (upto (N.of_nat (List.length pre))) pre ->
  good_rows pre ->
  good_rows (pre ++ find_defaults nt earlier (N.of_nat (List.length pre)) maps).
Proof.
  induction maps as [|m maps IH]; intros pre earlier Ee Hg; cbn [find_defaults].
  - rewrite app_nil_r. exact Hg.
  - set (r := CRow m _ _).
    replace (pre ++ r :: _) with ((pre ++ [r]) ++ find_defaults nt (earlier ++ [(N.of_nat (List.length pre), r)])
        (N.of_nat (List.length (pre ++ [r]))) maps).
    2:{ rewrite <- app_assoc. cbn [app]. rewrite app_length. cbn [List.length].
        replace (N.of_nat (List.length pre + 1)) with (N.succ (N.of_nat (List.length pre))) by lia.
        reflexivity. }
    apply IH.
    + rewrite app_length, Ee. cbn [List.length].
      replace (N.of_nat (List.length pre + 1)) with (N.succ (N.of_nat (List.length pre))) by lia.
      unfold upto. rewrite N2Nat.inj_succ, Nat2N.id.
      assert (X : forall n i, upto_from i (S n) = upto_from i n ++ [i + N.of_nat n]).
      { clear. induction n; intro i; [cbn; f_equal; lia|].
        cbn [upto_from]. cbn [upto_from] in IHn. rewrite IHn. cbn [app]. do 2 f_equal.
        f_equal. lia. }
      rewrite X. 
      assert (Y : forall (A B : Type) (a a2 : list A) (b b2 : list B), List.length a = List.length b ->
         combine (a ++ a2) (b ++ b2) = combine a b ++ combine a2 b2).
      { clear. induction a; intros a2 [|b0 b] b2 H; simpl in *; try discriminate; auto.
        f_equal. apply IHa. lia. }
      rewrite Y; [cbn [combine]; do 3 f_equal; lia|]. rewrite upto_from_length. reflexivity.
    + intros i r0 j Hi Hj.
      destruct (Nat.lt_ge_cases i (List.length pre)) as [L|L].
      * rewrite nth_error_app1 in Hi by exact L.
        destruct (Hg i r0 j Hi Hj) as [A (r' & B & C)]. split; [exact A|].
        exists r'. rewrite nth_error_app1; [auto|lia].
      * rewrite nth_error_app2 in Hi by exact L.
        destruct (i - List.length pre)%nat eqn:Ed; [|destruct n; discriminate].
        injection Hi as <-.
        unfold r in Hj. cbn [c_def] in Hj.
        apply (fold_consider m _ _ earlier earlier) in Hj;
          [|intros x Hx; exact Hx|intros k Hk; discriminate].
        destruct Hj as (r' & Hin & Hd). rewrite Ee in Hin.
        apply In_nth_error in Hin. destruct Hin as [k Hk].
        apply combine_nth_error in Hk. destruct Hk as [K1 K2].
        assert (Lk : (k < List.length pre)%nat) by (apply nth_error_Some; congruence).
        rewrite upto_nth in K1 by lia. injection K1 as <-.
        rewrite Nat2N.id. split; [lia|]. exists r'. rewrite nth_error_app1 by exact Lk. auto.
Qed.

Lemma compress_good nt dfas : good_rows (compress_transition_table nt dfas).
Proof.
  apply (find_defaults_good nt (map d_map dfas) [] []); [reflexivity|].
  intros i r j H. destruct i; discriminate.
Qed.

(* ---- the concatenated tables -------------------------------------------- *)

Lemma bases_length ls : forall n, List.length (bases n ls) = S (List.length ls).
Proof. induction ls; intros; simpl; auto. Qed.

Lemma bases_nth : forall ls n i, (i <= List.length ls)%nat ->
  nth_error (bases n ls) i = Some (n + N.of_nat (List.length (concat (firstn i ls)))).
Proof.
  induction ls as [|l ls IH]; intros n i H.
  - destruct i; [|simpl in H; lia]. cbn. f_equal; lia.
  - destruct i; cbn [bases nth_error firstn concat List.length]; [f_equal; lia|].
    rewrite IH by (simpl in H; lia). rewrite app_length. f_equal. lia.
Qed.

Lemma concat_nth {A} : forall (ls : list (list A)) i l k,
  nth_error ls i = Some l -> (k < List.length l)%nat ->
  nth_error (concat ls) (List.length (concat (firstn i ls)) + k) = nth_error l k.
Proof.
  induction ls as [|a ls IH]; intros i l k H L; [destruct i; discriminate|].
  destruct i; cbn [firstn concat List.length] in *.
  - injection H as ->. simpl. apply nth_error_app1. exact L.
  - rewrite app_length, <- Nat.add_assoc, nth_error_app2 by lia.
    replace (List.length a + _ - List.length a)%nat
      with (List.length (concat (firstn i ls)) + k)%nat by lia.
    apply IH; assumption.
Qed.

Lemma concat_firstn_le {A} (ls : list (list A)) : forall i,
  (List.length (concat (firstn i ls)) <= List.length (concat ls))%nat.
Proof.
  induction ls as [|a ls IH]; intros [|i]; cbn [firstn concat List.length]; try lia.
  rewrite !app_length. specialize (IH i). lia.
Qed.

Lemma concat_firstn_S {A} (ls : list (list A)) : forall i l, nth_error ls i = Some l ->
  List.length (concat (firstn (S i) ls)) =
  (List.length (concat (firstn i ls)) + List.length l)%nat.
Proof.
  induction ls as [|a ls IH]; intros i l H; [destruct i; discriminate|].
  destruct i; cbn [firstn concat].
  - injection H as ->. cbn [firstn concat]. rewrite app_length. simpl. lia.
  - rewrite !app_length. cbn [firstn] in IH. rewrite (IH i l H). lia.
Qed.

(* the kept entries of one row *)
Lemma kept_in rows r t d :
  In (t, d) (kept_entries rows r) <->
  nth_error (c_map r) (N.to_nat t) = Some d /\
  include_char (match c_def r with Some j => option_map c_map (aget rows j) | None => None end)
               t d = true.
Proof.
  unfold kept_entries. rewrite filter_In. cbn [fst snd]. split.
  - intros [H I]. split; [|exact I]. apply In_nth_error in H. destruct H as [k Hk].
    apply combine_nth_error in Hk. destruct Hk as [K1 K2].
    assert (L : (k < List.length (c_map r))%nat) by (apply nth_error_Some; congruence).
    rewrite upto_nth in K1 by lia. injection K1 as <-. rewrite Nat2N.id. exact K2.
  - intros [H I]. split; [|exact I]. apply nth_error_In with (n := N.to_nat t).
    assert (L : (N.to_nat t < List.length (c_map r))%nat) by (apply nth_error_Some; congruence).
    apply combine_nth_error. split; [|exact H].
    rewrite upto_nth by lia. f_equal. lia.
Qed.

Lemma sorted_filter_combine (f : N * option N -> bool) : forall (m : list (option N)) i n,
  StronglySorted (fun a b : N * option N => fst a < fst b) (filter f (combine (upto_from i n) m)) /\
  Forall (fun a : N * option N => i <= fst a) (filter f (combine (upto_from i n) m)).
Proof.
  induction m as [|d m IH]; intros i n.
  - destruct n; simpl; split; constructor.
  - destruct n; [split; constructor|]. cbn [upto_from combine filter].
    destruct (IH (N.succ i) n) as [A B]. 
    assert (B' : Forall (fun a : N * option N => i <= fst a) (filter f (combine (upto_from (N.succ i) n) m))).
    { eapply Forall_impl; [|exact B]. simpl. intros; lia. }
    destruct (f (i, d)); [|split; assumption].
    split; constructor; simpl; try assumption; try lia.
    eapply Forall_impl; [|exact B]. simpl. intros; lia.
Qed.

Lemma kept_sorted rows r :
  StronglySorted (fun a b : N * option N => fst a < fst b) (kept_entries rows r).
Proof. apply sorted_filter_combine. Qed.

Lemma sorted_nth {A} (R : A -> A -> Prop) : forall l i j a b,
  StronglySorted R l -> nth_error l i = Some a -> nth_error l j = Some b -> (i < j)%nat -> R a b.
Proof.
  induction l as [|x l IH]; intros i j a b S Hi Hj L; [destruct i; discriminate|].
  inversion S as [|? ? S1 F1]; subst. destruct j; [lia|].
  destruct i; cbn [nth_error] in *.
  - injection Hi as <-. rewrite Forall_forall in F1. apply F1. eapply nth_error_In; eauto.
  - apply (IH i j a b S1 Hi Hj). lia.
Qed.

Lemma filter_length_le {A} (f : A -> bool) l : (List.length (filter f l) <= List.length l)%nat.
Proof. induction l; simpl; [lia|]. destruct (f a); simpl; lia. Qed.

Lemma kept_length rows r : (List.length (kept_entries rows r) <= List.length (c_map r))%nat.
Proof.
  unfold kept_entries. etransitivity; [apply filter_length_le|].
  rewrite combine_length. lia.
Qed.

Lemma concat_kept_bound rows nt : forall crows,
  Forall (fun r => List.length (c_map r) = N.to_nat nt) crows ->
  (List.length (concat (map (kept_entries rows) crows)) <= List.length crows * N.to_nat nt)%nat.
Proof.
  induction crows as [|r crows IH]; intro F; [simpl; lia|].
  inversion F; subst. cbn [map concat List.length]. rewrite app_length.
  pose proof (kept_length rows r). specialize (IH H2). lia.
Qed.

Section Lookup.
  Variables (src : source) (dfas : list dnode).
  Let nt := s_ntok src.
  Let n := List.length dfas.
  Hypothesis rows_nt : Forall (fun d => List.length (d_map d) = N.to_nat nt) dfas.
  Hypothesis targets : closed_table (map d_map dfas).
  Hypothesis nt_small : nt <= 256.
  Hypothesis n_small : N.of_nat n <= 32768.
  Hypothesis size_small : N.of_nat n * nt <= 65535.

  Let crows := compress_transition_table nt dfas.
  Let rows := aof crows.
  Let kept := map (kept_entries rows) crows.
  Let tb := print_tables src dfas.

  Lemma crows_map : map c_map crows = map d_map dfas.
  Proof. apply find_defaults_map. Qed.

  Lemma crows_length : List.length crows = n.
  Proof. rewrite <- (map_length c_map), crows_map, map_length. reflexivity. Qed.

  Lemma crow_at i r : nth_error crows i = Some r ->
    nth_error (map d_map dfas) i = Some (c_map r).
  Proof. intro H. rewrite <- crows_map. apply map_nth_error. exact H. Qed.

  Lemma crow_len r : In r crows -> List.length (c_map r) = N.to_nat nt.
  Proof.
    intro H. apply In_nth_error in H. destruct H as [i H]. apply crow_at in H.
    apply nth_error_In in H. apply in_map_iff in H. destruct H as (d & <- & Hd).
    rewrite Forall_forall in rows_nt. apply rows_nt. exact Hd.
  Qed.

  Lemma total_bound : N.of_nat (List.length (concat kept)) <= 65535.
  Proof.
    unfold kept. pose proof (concat_kept_bound rows nt crows) as H.
    rewrite crows_length in H. 
    assert (F : Forall (fun r => List.length (c_map r) = N.to_nat nt) crows)
      by (apply Forall_forall; intros; apply crow_len; assumption).
    specialize (H F). nia.
  Qed.

  Lemma base_at i : (i <= n)%nat ->
    aget (t_base tb) (N.of_nat i) = Some (N.of_nat (List.length (concat (firstn i kept)))).
  Proof.
    intro L. unfold tb, print_tables. cbn [t_base]. fold nt crows rows kept.
    rewrite aget_of, Nat2N.id.
    rewrite (map_nth_error to_u16 i (bases 0 kept)
               (d := 0 + N.of_nat (List.length (concat (firstn i kept))))).
    - f_equal. unfold to_u16. pose proof (concat_firstn_le kept i). pose proof total_bound.
      rewrite N.mod_small; lia.
    - apply bases_nth. unfold kept. rewrite map_length, crows_length. exact L.
  Qed.

  (* position m of the tables belongs to row i *)
  Lemma token_at i r k e : nth_error crows i = Some r ->
    nth_error (kept_entries rows r) k = Some e ->
    aget (t_token tb) (N.of_nat (List.length (concat (firstn i kept))) + N.of_nat k) = Some (fst e) /\
    aget (t_next tb) (N.of_nat (List.length (concat (firstn i kept))) + N.of_nat k) = Some (snd e).
  Proof.
    intros Hi Hk. unfold tb, print_tables. cbn [t_token t_next]. fold nt crows rows kept.
    rewrite !aget_of.
    assert (Lk : (k < List.length (kept_entries rows r))%nat) by (apply nth_error_Some; congruence).
    assert (E : nth_error (concat kept) (N.to_nat (N.of_nat (List.length (concat (firstn i kept))) + N.of_nat k)) = Some e).
    { rewrite N2Nat.inj_add, !Nat2N.id.
      rewrite (concat_nth kept i (kept_entries rows r) k); [exact Hk| |exact Lk].
      unfold kept. apply map_nth_error. exact Hi. }
    destruct e as [t d]. pose proof (nth_error_In _ _ Hk) as Hin. apply kept_in in Hin.
    destruct Hin as [Ht _].
    assert (Lt : (N.to_nat t < N.to_nat nt)%nat).
    { rewrite <- (crow_len r); [apply nth_error_Some; congruence|eapply nth_error_In; eauto]. }
    split.
    - rewrite (map_nth_error (fun p : N * option N => to_u8 (fst p)) _ _ E). cbn [fst].
      f_equal. unfold to_u8. apply N.mod_small. lia.
    - rewrite (map_nth_error (fun p : N * option N => to_s16 (snd p)) _ _ E). cbn [snd].
      f_equal. destruct d as [d|]; [|reflexivity]. cbn [to_s16].
      assert (Ld : d < N.of_nat n).
      { unfold closed_table in targets. rewrite Forall_forall in targets.
        specialize (targets (c_map r)).
        assert (In (c_map r) (map d_map dfas)) as Hm by (eapply nth_error_In, crow_at; eauto).
        specialize (targets Hm). rewrite Forall_forall in targets.
        specialize (targets (Some d)). rewrite map_length in targets. apply targets.
        eapply nth_error_In; eauto. }
      rewrite N.mod_small by lia.
      replace (d <? 32768) with true by (symmetry; apply N.ltb_lt; lia). reflexivity.
  Qed.

  Lemma def_at i r : nth_error crows i = Some r ->
    aget (t_def tb) (N.of_nat i) = Some (c_def r).
  Proof.
    intro H. unfold tb, print_tables. cbn [t_def]. fold nt crows. rewrite aget_of, Nat2N.id.
    rewrite (map_nth_error (fun r => to_s16 (c_def r)) _ _ H). f_equal.
    destruct (c_def r) as [j|] eqn:E; [|reflexivity]. cbn [to_s16].
    destruct (compress_good nt dfas i r j H E) as [L _].
    assert (Li : (i < n)%nat) by (rewrite <- crows_length; apply nth_error_Some; congruence).
    rewrite N.mod_small by lia.
    replace (j <? 32768) with true by (symmetry; apply N.ltb_lt; lia). reflexivity.
  Qed.

  Lemma exit_length : List.length (t_exit tb) = n.
  Proof. unfold tb, print_tables. cbn [t_exit]. apply map_length. Qed.

  (* one row: the bisection finds exactly the kept entry *)
  Lemma row_bisect i r t : nth_error crows i = Some r ->
    exists res,
      bisect (t_token tb) t (N.of_nat (List.length (concat (firstn i kept))))
             (N.of_nat (List.length (concat (firstn (S i) kept)))) = Ok res /\
      match res with
      | Some m => exists d, In (t, d) (kept_entries rows r) /\ aget (t_next tb) m = Some d
      | None => forall d, ~ In (t, d) (kept_entries rows r)
      end.
  Proof.
    intro Hi.
    assert (HL : List.length (concat (firstn (S i) kept)) =
      (List.length (concat (firstn i kept)) + List.length (kept_entries rows r))%nat).
    { apply concat_firstn_S. unfold kept. apply map_nth_error. exact Hi. }
    set (l := N.of_nat (List.length (concat (firstn i kept)))).
    set (h := N.of_nat (List.length (concat (firstn (S i) kept)))).
    assert (Hp : forall m, l <= m < h -> exists k e, m = l + N.of_nat k /\
                 nth_error (kept_entries rows r) k = Some e).
    { intros m Hm. exists (N.to_nat (m - l)).
      assert (L : (N.to_nat (m - l) < List.length (kept_entries rows r))%nat) by (unfold l, h in *; lia).
      apply nth_error_Some in L. destruct (nth_error (kept_entries rows r) (N.to_nat (m - l))) as [e|] eqn:Ee;
        [|congruence]. exists e. split; [lia|reflexivity]. }
    destruct (bisect_ok (t_token tb) t l h) as (res & Er & Hr).
    - intros m Hm. destruct (Hp m Hm) as (k & e & -> & He).
      exists (fst e). apply (token_at i r k e Hi He).
    - intros a b La Lab Lb. 
      destruct (Hp a) as (ka & ea & Ea & Hka); [lia|]. destruct (Hp b) as (kb & eb & Eb & Hkb); [lia|].
      exists (fst ea), (fst eb). rewrite Ea at 1. rewrite Eb at 1.
      split; [apply (token_at i r ka ea Hi Hka)|]. split; [apply (token_at i r kb eb Hi Hkb)|].
      apply (sorted_nth _ _ ka kb ea eb (kept_sorted rows r) Hka Hkb). lia.
    - unfold l, h. lia.
    - exists res. split; [exact Er|]. destruct res as [m|].
      + destruct Hr as [Hm Ht]. destruct (Hp m Hm) as (k & e & Em & He).
        destruct (token_at i r k e Hi He) as [T1 T2]. fold l in T1, T2. rewrite <- Em in T1, T2.
        rewrite Ht in T1. injection T1 as ->. exists (snd e). split; [|exact T2].
        destruct e as [te de]. simpl. eapply nth_error_In; eauto.
      + intros d Hd. apply In_nth_error in Hd. destruct Hd as [k Hk].
        destruct (token_at i r k (t, d) Hi Hk) as [T1 _]. fold l in T1.
        assert (Lk : (k < List.length (kept_entries rows r))%nat) by (apply nth_error_Some; congruence).
        apply (Hr (l + N.of_nat k)); [unfold l, h; lia|]. exact T1.
  Qed.

  (* the entry of row r for token t *)
  Definition row_entry (r : crow) (t : N) : option N :=
    match nth_error (c_map r) (N.to_nat t) with Some d => d | None => None end.

  Lemma entry_row i r t : nth_error crows i = Some r ->
    entry (map d_map dfas) (N.of_nat i) t = row_entry r t.
  Proof.
    intro H. unfold entry, row_entry. rewrite Nat2N.id, (crow_at i r H). reflexivity.
  Qed.

  Lemma loop_step fuel i r t : nth_error crows i = Some r ->
    (c_def r = None -> next_state_loop (S fuel) tb (N.of_nat i) t = Ok (row_entry r t)) /\
    (forall j r', c_def r = Some j -> nth_error crows (N.to_nat j) = Some r' ->
       next_state_loop fuel tb j t = Ok (row_entry r' t) ->
       next_state_loop (S fuel) tb (N.of_nat i) t = Ok (row_entry r t)).
  Proof.
    intro Hi.
    assert (Li : (i < n)%nat) by (rewrite <- crows_length; apply nth_error_Some; congruence).
    destruct (row_bisect i r t Hi) as (res & Er & Hr).
    assert (E : forall k, next_state_loop (S fuel) tb (N.of_nat i) t = k <->
       match res with
       | Some m => match aget (t_next tb) m with Some d => Ok d | None => UB UB_bounds end
       | None => match c_def r with None => Ok None | Some d => next_state_loop fuel tb d t end
       end = k).
    { intro k. cbn [next_state_loop]. rewrite (base_at i) by lia.
      replace (N.succ (N.of_nat i)) with (N.of_nat (S i)) by lia. rewrite (base_at (S i)) by lia.
      rewrite Er. cbn [obind]. destruct res as [m|]; [reflexivity|].
      rewrite (def_at i r Hi). destruct (c_def r); reflexivity. }
    split.
    - intro Hd. apply E. destruct res as [m|].
      + destruct Hr as (d & Hin & Hn). rewrite Hn. f_equal.
        apply kept_in in Hin. unfold row_entry. destruct Hin as [-> _]. reflexivity.
      + rewrite Hd. f_equal. unfold row_entry.
        destruct (nth_error (c_map r) (N.to_nat t)) as [[d|]|] eqn:En; try reflexivity.
        exfalso. apply (Hr (Some d)). apply kept_in. rewrite Hd. split; [exact En|reflexivity].
    - intros j r' Hd Hj Hrec. apply E. destruct res as [m|].
      + destruct Hr as (d & Hin & Hn). rewrite Hn. f_equal.
        apply kept_in in Hin. unfold row_entry. destruct Hin as [-> _]. reflexivity.
      + rewrite Hd, Hrec. f_equal. unfold row_entry.
        assert (Lr : List.length (c_map r) = List.length (c_map r')).
        { rewrite !crow_len; [reflexivity| |]; eapply nth_error_In; eauto. }
        destruct (nth_error (c_map r) (N.to_nat t)) as [d|] eqn:En.
        * specialize (Hr d). rewrite kept_in, Hd in Hr.
          unfold rows in Hr. rewrite aget_of, Hj in Hr. cbn [option_map include_char] in Hr.
          destruct (nth_error (c_map r') (N.to_nat t)) as [d'|] eqn:En'.
          -- destruct (opt_eqb d d') eqn:Eo; [apply opt_eqb_eq in Eo; congruence|].
             exfalso. apply Hr. split; [exact En|reflexivity].
          -- exfalso. apply nth_error_None in En'.
             assert (N.to_nat t < List.length (c_map r))%nat by (apply nth_error_Some; congruence). lia.
        * assert (nth_error (c_map r') (N.to_nat t) = None) as ->; [|reflexivity].
          apply nth_error_None. apply nth_error_None in En. lia.
  Qed.

  Theorem next_state_entry s t : s < N.of_nat n ->
    next_state tb (Some s) t = Ok (entry (map d_map dfas) s t).
  Proof.
    intro L. cbn [next_state]. rewrite exit_length.
    destruct (nth_error crows (N.to_nat s)) as [r|] eqn:Hi.
    2:{ apply nth_error_None in Hi. rewrite crows_length in Hi. lia. }
    pose proof (entry_row _ r t Hi) as He. rewrite N2Nat.id in He. rewrite He.
    replace s with (N.of_nat (N.to_nat s)) at 1 by lia.
    destruct (c_def r) as [j|] eqn:Hd.
    - destruct (compress_good nt dfas _ r j Hi Hd) as [Lj (r' & Hj & Hd')].
      apply (loop_step n (N.to_nat s) r t Hi) with (j := j) (r' := r'); try assumption.
      assert (En : n = S (n - 1)) by lia. rewrite En.
      replace j with (N.of_nat (N.to_nat j)) by lia.
      apply (loop_step (n - 1) (N.to_nat j) r' t Hj). exact Hd'.
    - apply (loop_step n (N.to_nat s) r t Hi). exact Hd.
  Qed.

  Lemma entry_lt s t d : entry (map d_map dfas) s t = Some d -> d < N.of_nat n.
  Proof.
    unfold entry. destruct (nth_error (map d_map dfas) (N.to_nat s)) as [row|] eqn:E; [|discriminate].
    destruct (nth_error row (N.to_nat t)) as [x|] eqn:E2; [|discriminate]. intros ->.
    unfold closed_table in targets. rewrite Forall_forall in targets.
    specialize (targets _ (nth_error_In _ _ E)). rewrite Forall_forall in targets.
    specialize (targets _ (nth_error_In _ _ E2)). rewrite map_length in targets. exact targets.
  Qed.

  Theorem run_tables_walk : forall w s,
    match s with Some s => s < N.of_nat n | None => True end ->
    run_tables tb s w = Ok (walk (map d_map dfas) s w).
  Proof.
    induction w as [|t w IH]; intros s Hs; cbn [run_tables walk]; [reflexivity|].
    destruct s as [s|].
    - rewrite next_state_entry by exact Hs. cbn [obind]. apply IH.
      destruct (entry (map d_map dfas) s t) as [d|] eqn:E; [|exact I].
      eapply entry_lt; eauto.
    - cbn [next_state obind]. rewrite IH by exact I. destruct w; reflexivity.
  Qed.
End Lookup.
