(* Shifts and reductions. *)
From Coq Require Import String List NArith Bool Arith Sorted Lia.
From Verif Require Import Base TokData TokModel StreamModel StreamSpec StreamProofs ErasureProofs ElideModel ElideSpec ElideProofs ElideProofs2 ElideProofs3 ElideProofs4 ElideProofs5.
Import ListNotations.
Open Scope list_scope.
Notation length := List.length.

Section Trace.
  Variable can_shift : nat -> tok -> bool.
  Variable verbose : bool.
  Variable ts : list node.
  Hypothesis Hgood : Forall good ts.

  Notation hz := (hz can_shift).
  Notation live := (live can_shift ts).
  Notation inv := (inv can_shift ts).

  Lemma existsb_seq k a n : existsb (Nat.eqb k) (seq a n) = (Nat.leb a k && Nat.ltb k (a + n)).
  Proof.
    destruct (Nat.leb a k && Nat.ltb k (a + n)) eqn:E.
    - apply andb_true_iff in E. destruct E as (E1 & E2). apply Nat.leb_le in E1. apply Nat.ltb_lt in E2.
      apply existsb_exists. exists k. split; [apply in_seq; lia|apply Nat.eqb_refl].
    - destruct (existsb (Nat.eqb k) (seq a n)) eqn:E2; [|reflexivity]. apply existsb_exists in E2. destruct E2 as (i & Hi & He).
      apply Nat.eqb_eq in He. subst i. apply in_seq in Hi. apply andb_false_iff in E. destruct E as [E|E]; [apply Nat.leb_gt in E|apply Nat.ltb_ge in E]; lia.
  Qed.

  Lemma given_len v g rest : g = v_given v ++ rest -> length (v_given v) <= length g.
  Proof. intros ->. rewrite app_length. lia. Qed.

  (* marking at the place of the last token given *)
  Lemma mark_live st v g rest s sh (t : tokbuf) skip e : live st v g rest -> v_pending v = true ->
    t_buf t = t_buf (st_buf st) ->
    (forall i, length (v_given v) <= i < length g -> skip i = Ok (e i)) ->
    (forall i, length (v_given v) <= i < length g -> e i = spared g sh i (length (v_given v) - 1)) ->
    exists c', mark can_shift s t skip (length (v_given v) - 1) (seq (length (v_given v)) (length g - length (v_given v))) (t_conflicts (st_buf st)) = Ok c' /\
      length c' = length (t_conflicts (st_buf st)) /\ rows_ok c' /\ bits c' (length g) (hz g ((length (v_given v) - 1, s, sh) :: v_hist v)).
  Proof.
    intros HL Hp Ebuf Hskip He. pose proof HL as [Hsh Hg Hne Hrest Hin Homit Hval Hn Hmax Hrp Hsp Hh Hf Hb Hcur Hprev].
    assert (Hl1 : 1 <= length (v_given v)) by (destruct (v_given v); [contradiction|cbn; lia]).
    destruct Hsh as (_ & _ & _ & _ & Hrows).
    destruct (mark_ok can_shift s t skip e (length (v_given v) - 1) (length g) (val g)
       (seq (length (v_given v)) (length g - length (v_given v))) (t_conflicts (st_buf st)) (hz g (v_hist v))) as (c' & E & Hl & Hr & Hbits); auto.
    - intros i Hi. apply in_seq in Hi. split; [lia|]. destruct (nth_error g i) as [r|] eqn:Er; [|apply nth_error_None in Er; lia].
      pose proof (Hval i r ltac:(lia) Er) as Hv. destruct (fst r) as [v0|] eqn:Ev; [|contradiction]. exists r, v0.
      rewrite Ebuf. split; [apply Hh; exact Er|]. split; [exact Ev|]. unfold val. rewrite Er. exact Ev.
    - intros i Hi. apply in_seq in Hi. apply Hskip. lia.
    - exists c'. repeat split; auto. eapply bits_ext; [|exact Hbits]. intros k j Hk Hj.
      cbn beta. rewrite existsb_seq. unfold ElideProofs5.hz. cbn [existsb hit].
      destruct (Nat.eqb_spec j (length (v_given v) - 1)) as [->|Hne2].
      + rewrite Nat.eqb_refl. cbn [andb]. destruct (Nat.ltb_spec (length (v_given v) - 1) k) as [Hlt|Hge]; cbn [andb].
        * rewrite (proj2 (Nat.leb_le _ _)) by lia. rewrite (proj2 (Nat.ltb_lt _ _)) by lia. cbn [andb].
          rewrite He by lia. rewrite orb_comm. reflexivity.
        * rewrite (proj2 (Nat.leb_gt _ _)) by lia. reflexivity.
      + rewrite (proj2 (Nat.eqb_neq (length (v_given v) - 1) j)) by lia. cbn [andb orb]. rewrite orb_false_r. reflexivity.
  Qed.

  (* shifting a terminator *)
  Lemma shift_mid st v g rest s : live st v g rest -> v_pending v = true -> complete (v_given v) = false ->
    exists st', trace_shift can_shift verbose s st = Ok (st', []) /\ inv st' (after ts v (E_shift s)).
  Proof.
    intros HL Hp Hc. pose proof HL as [Hsh Hg Hne Hrest Hin Homit Hval Hn Hmax Hrp Hsp Hh Hf Hb Hcur Hprev].
    rewrite Hc in Hrest. destruct Hrest as (Ha & Heof).
    assert (Hl1 : 1 <= length (v_given v)) by (destruct (v_given v); [contradiction|cbn; lia]).
    assert (Hr1 : length rest > 0) by (inversion Ha; cbn; lia).
    assert (Hlg : length g = length (v_given v) + length rest) by (rewrite Hg, app_length; reflexivity).
    unfold trace_shift. cbn [t_n t_max t_rp t_sp t_buf t_conflicts t_flags]. rewrite Hrp, Hn.
    destruct (Nat.eqb_spec (length (v_given v)) (length g)) as [E|_]; [lia|].
    set (t := Tokbuf (length g) (t_max (st_buf st)) (length (v_given v)) (length (v_given v)) (t_buf (st_buf st)) (t_conflicts (st_buf st)) (t_flags (st_buf st))).
    destruct (nth_error g (length (v_given v) - 1)) as [r0|] eqn:E0; [|apply nth_error_None in E0; lia].
    set (e := fun i => spared g true i (length (v_given v) - 1)).
    destruct (mark_live st v g rest s true t (cu_exception t) e HL Hp eq_refl) as (c & E & Hl & Hr & Hbits).
    { intros i Hi. unfold cu_exception, t. cbn [t_sp t_n t_buf].
      destruct (length (v_given v)) as [|p] eqn:Ep; [lia|]. cbn [Nat.sub] in E0. rewrite Nat.sub_0_r in E0.
      rewrite (get_ok _ _ _ (Hh _ _ E0)). cbn [obind init]. f_equal. unfold e, spared, is_cu, val. cbn [Nat.sub]. rewrite Nat.sub_0_r, E0.
      cbn [andb]. destruct (Nat.eqb_spec i (length g - 1)) as [->|]; cbn [andb]; [|reflexivity].
      assert (Eq : Nat.eqb (S p) (length g - 1) = Nat.eqb p (length g - 1 - 1)).
      { destruct (Nat.eqb_spec (S p) (length g - 1)), (Nat.eqb_spec p (length g - 1 - 1)); auto; lia. }
      rewrite Eq. reflexivity. }
    { intros; reflexivity. }
    rewrite E. cbn [obind]. eexists. split; [reflexivity|]. left. exists g, rest.
    constructor; cbn [after st_buf st_stream st_cur st_prev v_given v_stream v_pending v_hist v_subs v_single t_n t_max t_rp t_sp t_buf t_conflicts t_flags]; auto.
    - destruct Hsh as (A & B & C & D & F). unfold shape. cbn. repeat split; auto. congruence.
    - rewrite Hc. auto.
    - unfold place. rewrite Hp. exact Hbits.
  Qed.

  Lemma retreat_ok t g subs : shape t -> holds t g -> flags_ok t g subs -> t_n t = length g -> 1 <= length g ->
    (forall i r, S i < length g -> nth_error g i = Some r -> omissible r = true) ->
    retreat t = Ok (Tokbuf (S (last_word g subs)) (t_max t) (t_rp t) (t_sp t) (t_buf t) (t_conflicts t) (t_flags t)) /\
    last_word g subs < length g.
  Proof.
    intros Hsh Hh Hf Hn Hl Hom. unfold retreat, last_word. rewrite Hn.
    assert (Et : forall n, n = length g -> Tokbuf n (t_max t) (t_rp t) (t_sp t) (t_buf t) (t_conflicts t) (t_flags t) = t) by (intros n ->; destruct t; cbn in *; congruence).
    destruct (length g - 1) as [|i] eqn:Ei.
    - destruct (Nat.ltb_spec 1 (length g)); [lia|]. rewrite Et by lia. split; [reflexivity|lia].
    - destruct (Nat.ltb_spec 1 (length g)); [|lia].
      destruct (nth_error g i) as [r|] eqn:Er; [|apply nth_error_None in Er; lia].
      destruct (nth_error g (S i)) as [z|] eqn:Ez; [|apply nth_error_None in Ez; lia].
      replace (length g - 2) with i by lia. rewrite (get_ok _ _ _ (Hf i r Er)). cbn [obind f_boiveho init].
      rewrite (get_ok _ _ _ (Hf (S i) z Ez)). cbn [obind f_subscript init].
      destruct (quantifier_end r) eqn:Eq; cbn [andb].
      + destruct (existsb (Nat.eqb (S i)) subs); cbn [negb andb].
        * rewrite andb_false_r. rewrite Et by lia. split; [reflexivity|lia].
        * rewrite andb_true_r. rewrite (get_ok _ _ _ (Hh i r Er)). cbn [obind init].
          unfold quantifier_end in Eq. unfold before_free. destruct (snd r) as [|x|]; try discriminate. destruct (dat x); try discriminate.
          destruct followed_by_free.
          -- replace (length g - 1) with (S i) by lia. split; [reflexivity|lia].
          -- rewrite Et by lia. split; [reflexivity|lia].
      + rewrite Et by lia. split; [reflexivity|lia].
  Qed.

  Lemma synthetic_ok t g subs m (x : nat -> nat -> bool) prev single : shape t -> holds t g -> flags_ok t g subs -> t_n t = S m -> m < length g ->
    bits (t_conflicts t) (S m) x -> (0 < m -> prev = single) ->
    exists c, synthetic t prev = Ok (Tokbuf (t_n t) (t_max t) (t_rp t) (t_sp t) (t_buf t) c (t_flags t)) /\
      length c = length (t_conflicts t) /\ rows_ok c /\
      exists x', bits c (S m) x' /\ x' m m = x m m /\ forall k j, k <= m -> j < k -> (x' k j = true <-> x k j = true \/ merges g single m k j).
  Proof.
    intros Hsh Hh Hf Hn Hm Hb Hprev. destruct Hsh as (_ & _ & _ & _ & Hrows). unfold synthetic.
    destruct (nth_error g 0) as [r0|] eqn:E0; [|apply nth_error_None in E0; lia].
    destruct (nth_error g m) as [z|] eqn:Ez; [|apply nth_error_None in Ez; lia].
    rewrite (get_ok _ _ _ (Hf 0 r0 E0)). cbn [obind f_boiveho init]. rewrite Hn. replace (S m - 1) with m by lia.
    rewrite (get_ok _ _ _ (Hf m z Ez)). cbn [obind f_marker init].
    assert (Hcase : (m = 0 -> quantifier_end r0 = true -> number_marker z = true -> False)).
    { intros -> Hq Hz. rewrite E0 in Ez. injection Ez as <-. unfold quantifier_end, number_marker in *.
      destruct (snd r0) as [|y|]; try discriminate. destruct (dat y); discriminate. }
    assert (Hno : (quantifier_end r0 && prev && number_marker z = false) ->
      exists c, Ok t = Ok (Tokbuf (t_n t) (t_max t) (t_rp t) (t_sp t) (t_buf t) c (t_flags t)) /\
      length c = length (t_conflicts t) /\ rows_ok c /\
      exists x', bits c (S m) x' /\ x' m m = x m m /\ forall k j, k <= m -> j < k -> (x' k j = true <-> x k j = true \/ merges g single m k j)).
    { intro Hf0. exists (t_conflicts t). split; [destruct t; reflexivity|]. split; [reflexivity|]. split; [exact Hrows|].
      exists x. split; [exact Hb|]. split; [reflexivity|]. intros k j Hk Hj. split; [auto|]. intros [H|(-> & -> & Hs & H1 & H2)]; [exact H|].
      exfalso. rewrite E0 in H1. rewrite Ez in H2. cbn in H1, H2. injection H1 as H1. injection H2 as H2.
      rewrite H1, H2, Hprev, Hs in Hf0 by lia. discriminate. }
    rewrite <- Hn in *.
    destruct (quantifier_end r0) eqn:Eq; [|rewrite Hn in *; apply Hno; reflexivity].
    destruct prev eqn:Ep; [|rewrite Hn in *; apply Hno; reflexivity].
    destruct (number_marker z) eqn:Em; [|rewrite Hn in *; apply Hno; reflexivity].
    assert (Hm0 : 0 < m) by (destruct m; [exfalso; apply Hcase; auto|lia]).
    rewrite Hn in *.
    destruct (set_conflict_ok (t_conflicts t) (S m) x m 0 Hrows Hb) as (c & -> & Hl & Hr & Hbits); [lia|lia|].
    cbn [obind]. exists c. split; [reflexivity|]. split; [exact Hl|]. split; [exact Hr|]. eexists. split; [exact Hbits|]. cbn beta.
    split; [rewrite Nat.eqb_refl; destruct (Nat.eqb_spec m 0); [lia|reflexivity]|].
    intros k j Hk Hj. unfold merges. rewrite E0, Ez. cbn [option_map]. rewrite Eq, Em, <- Hprev by exact Hm0.
    destruct (Nat.eqb_spec k m) as [->|Hk2], (Nat.eqb_spec j 0) as [->|Hj2]; cbn [andb]; split; intro H; auto.
    - right. auto 10.
    - destruct H as [H|(_ & H & _)]; [exact H|contradiction].
    - destruct H as [H|(H & _)]; [exact H|contradiction].
    - destruct H as [H|(H & _)]; [exact H|contradiction].
  Qed.

  (* shifting the last token of a group *)
  Lemma shift_last st v g rest s : live st v g rest -> v_pending v = true -> complete (v_given v) = true ->
    exists st' l, trace_shift can_shift verbose s st = Ok (st', l) /\ reports can_shift verbose v l /\ inv st' (after ts v (E_shift s)).
  Proof.
    intros HL Hp Hc. pose proof HL as [Hsh Hg Hne Hrest Hin Homit Hval Hn Hmax Hrp Hsp Hh Hf Hb Hcur Hprev].
    rewrite Hc in Hrest. destruct Hrest as (-> & Hs & _). rewrite app_nil_r in Hg. subst g.
    assert (Hl1 : 1 <= length (v_given v)) by (destruct (v_given v); [contradiction|cbn; lia]).
    unfold trace_shift. cbn [t_n t_max t_rp t_sp t_buf t_conflicts t_flags]. rewrite Hrp, Hn, Nat.eqb_refl.
    set (t := Tokbuf (length (v_given v)) (t_max (st_buf st)) (length (v_given v)) (length (v_given v)) (t_buf (st_buf st)) (t_conflicts (st_buf st)) (t_flags (st_buf st))).
    assert (Hsh1 : shape t) by exact Hsh. assert (Hh1 : holds t (v_given v)) by exact Hh. assert (Hf1 : flags_ok t (v_given v) (v_subs v)) by exact Hf.
    destruct (retreat_ok t (v_given v) (v_subs v) Hsh1 Hh1 Hf1 eq_refl Hl1 Homit) as (Er & Hm). rewrite Er. cbn [obind].
    set (m := last_word (v_given v) (v_subs v)) in *.
    set (t1 := Tokbuf (S m) (t_max t) (t_rp t) (t_sp t) (t_buf t) (t_conflicts t) (t_flags t)).
    assert (Hb1 : bits (t_conflicts t1) (S m) (hz (v_given v) (v_hist v))).
    { apply (bits_less _ (length (v_given v))); [lia|]. exact Hb. }
    assert (Hprev1 : 0 < m -> st_prev st = v_single v) by (intro; apply Hprev; lia).
    destruct (synthetic_ok t1 (v_given v) (v_subs v) m _ (st_prev st) (v_single v) Hsh1 Hh1 Hf1 eq_refl Hm Hb1 Hprev1) as (c & Es & Hcl & Hcr & x' & Hbx & Hdx & Hx').
    rewrite Es. cbn [obind].
    set (t2 := Tokbuf (t_n t1) (t_max t1) (t_rp t1) (t_sp t1) (t_buf t1) c (t_flags t1)).
    assert (Hdiag : x' m m = false).
    { rewrite Hdx. unfold ElideProofs5.hz. rewrite Nat.ltb_irrefl. reflexivity. }
    destruct (reporting_ok t2 (v_given v) m x' Hh1 eq_refl Hm) with (verbose := verbose) as (l & El & h & r & Ehr & Hsaid & Hverb); [|exact Hbx|exact Hdiag|].
    { intros i y Hi Hy. apply (Homit i y); [lia|exact Hy]. }
    rewrite El. cbn [obind].
    assert (Hext : forall k j, k <= m -> j < k -> (X x' k j <-> dangers can_shift v m k j)).
    { intros k j Hk Hj. unfold X, dangers. rewrite (Hx' k j Hk Hj), (hz_spec can_shift (v_given v) (v_hist v) k j Hj). tauto. }
    eexists. exists l. split; [reflexivity|]. split.
    - unfold reports. rewrite Hc. fold m. exists h, r. split; [exact Ehr|]. split.
      + eapply said_ext; [|exact Hsaid]. intros k j Hk Hj. apply Hext; [|exact Hj]. rewrite map_length, firstn_length in Hk. lia.
      + destruct (verbose && Nat.ltb 0 m); [|exact Hverb]. destruct Hverb as (rows & Eh & Ht). exists rows. split; [exact Eh|].
        eapply table_ext; [|exact Ht]. exact Hext.
    - right. constructor; cbn [after st_buf st_stream st_cur st_prev v_given v_stream v_pending v_hist v_subs v_single t2 t1 t t_n t_max t_rp t_sp t_buf t_conflicts t_flags]; auto; try lia.
      destruct Hsh as (A & B & C & D & F). unfold shape. cbn [t2 t1 t t_max t_buf t_flags t_conflicts]. repeat split; auto. rewrite Hcl. exact D.
  Qed.

  Lemma shift_inv st v s : inv st v -> allowed1 v (E_shift s) ->
    exists st' l, trace_shift can_shift verbose s st = Ok (st', l) /\ reports can_shift verbose v l /\ inv st' (after ts v (E_shift s)).
  Proof.
    intros [(g & rest & HL)|HD] Hp; cbn in Hp.
    - destruct (complete (v_given v)) eqn:Ec.
      + eapply shift_last; eauto.
      + destruct (shift_mid st v g rest s HL Hp Ec) as (st' & E & Hi). exists st', []. split; [exact E|]. split; [|exact Hi].
        unfold reports. rewrite Ec. reflexivity.
    - destruct HD. congruence.
  Qed.

  Lemma flags_set t g subs p f : flags_ok t g subs -> p < length (t_flags t) ->
    exists y, nth_error (t_flags t) p = Some y /\
    exists fl, set (t_flags t) p (Flags (f_boiveho y) (Some true) (f_marker y)) = Ok fl /\ length fl = length (t_flags t) /\
      (t_flags f = fl -> flags_ok f g (p :: subs)).
  Proof.
    intros Hf Hp. destruct (nth_error (t_flags t) p) as [y|] eqn:Ey; [|apply nth_error_None in Ey; lia]. exists y. split; [reflexivity|].
    destruct (set_ok (t_flags t) p (Flags (f_boiveho y) (Some true) (f_marker y)) Hp) as (fl & E & Hl & Hnth). exists fl. split; [exact E|]. split; [exact Hl|].
    intros Ef i r Hi. rewrite Ef, Hnth. cbn [existsb]. destruct (Nat.eqb_spec i p) as [->|]; cbn [orb]; [|apply Hf; exact Hi].
    rewrite (Hf p r Hi) in Ey. injection Ey as <-. reflexivity.
  Qed.

  Lemma reduce_inv st v s sub : inv st v -> allowed1 v (E_reduce s sub) ->
    exists st', trace_reduce can_shift s sub st = Ok st' /\ inv st' (after ts v (E_reduce s sub)).
  Proof.
    intros [(g & rest & HL)|HD] Hal; unfold allowed1 in Hal.
    - pose proof HL as [Hsh Hg Hne Hrest Hin Homit Hval Hn Hmax Hrp Hsp Hh Hf Hb Hcur Hprev].
      assert (Hl1 : 1 <= length (v_given v)) by (destruct (v_given v); [contradiction|cbn; lia]).
      assert (Hlg : length g = length (v_given v) + length rest) by (rewrite Hg, app_length; reflexivity).
      assert (Hplace : place v < length g).
      { unfold place. destruct (v_pending v) eqn:Ep; [lia|]. destruct (complete (v_given v)).
        - destruct Hrest as (_ & _ & H). discriminate.
        - destruct Hrest as (Ha & _). inversion Ha; subst; cbn in Hlg; lia. }
      unfold trace_reduce.
      assert (Hfl : exists fl, (if sub then do g <- get (t_flags (st_buf st)) (t_sp (st_buf st)); set (t_flags (st_buf st)) (t_sp (st_buf st)) (Flags (f_boiveho g) (Some true) (f_marker g)) else Ok (t_flags (st_buf st))) = Ok fl /\
        length fl = length (t_flags (st_buf st)) /\ forall f, t_flags f = fl -> flags_ok f g (if sub then place v :: v_subs v else v_subs v)).
      { destruct sub.
        - rewrite Hsp. pose proof Hsh as (_ & _ & Hlf & _).
          destruct (flags_set (st_buf st) g (v_subs v) (place v) (st_buf st) Hf) as (y & Ey & fl & E & Hl & _); [lia|].
          exists fl. rewrite (get_ok _ _ _ Ey). cbn [obind]. split; [exact E|]. split; [exact Hl|].
          intros f Ef. destruct (flags_set (st_buf st) g (v_subs v) (place v) f Hf) as (y' & Ey' & fl' & E' & _ & Hres); [lia|].
          rewrite Ey in Ey'. injection Ey' as <-. rewrite E in E'. injection E' as <-. apply Hres. exact Ef.
        - exists (t_flags (st_buf st)). split; [reflexivity|]. split; [reflexivity|]. intros f Ef i r Hi. rewrite Ef. apply Hf. exact Hi. }
      destruct Hfl as (fl & -> & Hfll & Hflok). cbn [obind]. rewrite Hsp, Hrp, Hn.
      destruct (v_pending v) eqn:Ep.
      + unfold place. rewrite Ep. destruct (Nat.eqb_spec (length (v_given v) - 1) (length (v_given v))); [lia|].
        destruct (mark_live st v g rest s false (st_buf st) (fun _ => Ok false) (fun _ => false) HL Ep eq_refl) as (c & E & Hl & Hr & Hbits).
        { reflexivity. } { reflexivity. }
        rewrite E. cbn [obind]. eexists. split; [reflexivity|]. left. exists g, rest.
        constructor; cbn [after st_buf st_stream st_cur st_prev v_given v_stream v_pending v_hist v_subs v_single t_n t_max t_rp t_sp t_buf t_conflicts t_flags]; auto.
        * destruct Hsh as (A & B & C & D & F). unfold shape. cbn. repeat split; auto; congruence.
        * destruct (complete (v_given v)); [tauto|exact Hrest].
        * unfold place. cbn [v_pending v_given]. rewrite Ep. reflexivity.
        * rewrite Ep. unfold place. rewrite Ep. exact Hbits.
      + unfold place. rewrite Ep, Nat.eqb_refl. cbn [obind]. eexists. split; [reflexivity|]. left. exists g, rest.
        constructor; cbn [after st_buf st_stream st_cur st_prev v_given v_stream v_pending v_hist v_subs v_single t_n t_max t_rp t_sp t_buf t_conflicts t_flags]; auto.
        * destruct Hsh as (A & B & C & D & F). unfold shape. cbn. repeat split; auto; congruence.
        * destruct (complete (v_given v)); [|exact Hrest]. destruct Hrest as (A & B & C). discriminate.
        * unfold place. cbn [v_pending v_given]. rewrite Ep. reflexivity.
        * rewrite Ep. exact Hb.
    - destruct HD as [Hsh Hc Hp Hs Hin Hn Hrp Hsp Hmax Hcur]. unfold trace_reduce. rewrite Hsp, Hrp, Nat.eqb_refl.
      assert (Hfl : exists fl, (if sub then do g <- get (t_flags (st_buf st)) (length (v_given v)); set (t_flags (st_buf st)) (length (v_given v)) (Flags (f_boiveho g) (Some true) (f_marker g)) else Ok (t_flags (st_buf st))) = Ok fl /\
        length fl = length (t_flags (st_buf st))).
      { destruct sub; [|eexists; split; reflexivity]. destruct (Hal eq_refl) as (_ & [H|[H|H]]); [congruence|congruence|].
        pose proof Hsh as ((q & Hq) & _ & Hlf & _).
        assert (Hlt : length (v_given v) < length (t_flags (st_buf st))).
        { rewrite Hlf. assert (length (v_given v) <> t_max (st_buf st)); [|lia]. intro E. apply H. rewrite E, Hq, Nat.mul_comm. apply Nat.mod_mul. lia. }
        destruct (nth_error (t_flags (st_buf st)) (length (v_given v))) as [y|] eqn:Ey; [|apply nth_error_None in Ey; lia].
        rewrite (get_ok _ _ _ Ey). cbn [obind].
        destruct (set_ok (t_flags (st_buf st)) (length (v_given v)) (Flags (f_boiveho y) (Some true) (f_marker y)) Hlt) as (fl & E & Hl & _). eauto. }
      destruct Hfl as (fl & -> & Hfll). cbn [obind]. eexists. split; [reflexivity|]. right.
      constructor; cbn [after st_buf st_stream st_cur st_prev v_given v_stream v_pending v_hist v_subs v_single t_n t_max t_rp t_sp t_buf t_conflicts t_flags]; auto.
      + destruct Hsh as (A & B & C & D & F). unfold shape. cbn. repeat split; auto; congruence.
      + lia.
  Qed.

  Lemma advance_ok c s : inside ts s -> exists s', error_advance ts c s = Ok s' /\ inside ts s' /\ eof s' = eof s.
  Proof.
    intro Hin. unfold error_advance. destruct (adv_spec ts c (skipn (pos s) ts) (pos s) (length ts + 1) Hin eq_refl) as (q & Hq & Hb & _).
    { rewrite skipn_length. lia. }
    rewrite Hq. cbn [obind]. eexists. split; [reflexivity|]. split; [exact Hb|reflexivity].
  Qed.
  Lemma advance_inv st v c : inv st v -> allowed1 v (E_advance c) ->
    exists s, error_advance ts c (st_stream st) = Ok s /\ inv (State (st_buf st) (st_prev st) (st_cur st) s) (after ts v (E_advance c)).
  Proof.
    intros HI Hc. cbn in Hc.
    assert (H : st_stream st = v_stream v /\ inside ts (v_stream v)).
    { destruct HI as [(g & rest & HL)|HD]; [destruct HL as [? ? ? Hrest Hin]; rewrite Hc in Hrest; tauto|destruct HD; auto]. }
    destruct H as (Es & Hin). rewrite Es. destruct (advance_ok c (v_stream v) Hin) as (s & E & Hin' & _). exists s. split; [exact E|].
    cbn [after]. rewrite E. destruct HI as [(g & rest & HL)|HD].
    - left. exists g, rest. destruct HL as [Hsh Hg Hne Hrest Hin2 Homit Hval Hn Hmax Hrp Hsp Hh Hf Hb Hcur Hprev].
      constructor; cbn [st_buf st_stream st_cur st_prev v_given v_stream v_pending v_hist v_subs v_single]; auto.
      rewrite Hc in *. tauto.
    - right. destruct HD. constructor; cbn [st_buf st_stream st_cur st_prev v_given v_stream v_pending v_hist v_subs v_single]; auto.
  Qed.

  Lemma trace_inv : forall es st v, inv st v -> allowed ts v es ->
    exists l, trace can_shift verbose ts es st = Ok l /\ follows can_shift verbose ts v es l.
  Proof.
    induction es as [|e es IH]; intros st v HI Hal; cbn [trace follows]; [eauto|]. cbn [allowed] in Hal. destruct Hal as (Ha1 & Hal).
    destruct e as [|s|s sub|c].
    - destruct (lex_inv can_shift ts Hgood st v HI) as (st' & E & HI'). rewrite E. cbn [obind fst snd].
      destruct (IH _ _ HI' Hal) as (l & El & Hf). rewrite El. cbn [obind]. eexists. split; [reflexivity|].
      exists [An_token (snd (yylex1 ts (v_stream v)))], l. split; [reflexivity|]. split; [reflexivity|exact Hf].
    - destruct (shift_inv st v s HI Ha1) as (st' & r & E & Hr & HI'). rewrite E. cbn [obind fst snd].
      destruct (IH _ _ HI' Hal) as (l & El & Hf). rewrite El. cbn [obind]. eexists. split; [reflexivity|].
      exists [An_report r], l. split; [reflexivity|]. split; [|exact Hf]. exists r. split; [reflexivity|exact Hr].
    - destruct (reduce_inv st v s sub HI Ha1) as (st' & E & HI'). rewrite E. cbn [obind].
      destruct (IH _ _ HI' Hal) as (l & El & Hf). exists l. split; [exact El|]. exists [], l. split; [reflexivity|]. split; [reflexivity|exact Hf].
    - destruct (advance_inv st v c HI Ha1) as (s & E & HI'). rewrite E. cbn [obind].
      destruct (IH _ _ HI' Hal) as (l & El & Hf). exists l. split; [exact El|]. exists [], l. split; [reflexivity|]. split; [reflexivity|exact Hf].
  Qed.
  Lemma trace_follows es : allowed ts view0 es -> exists l, trace can_shift verbose ts es state0 = Ok l /\ follows can_shift verbose ts view0 es l.
  Proof. apply trace_inv. apply inv0. Qed.

  Lemma follows_stream : forall es v l, inside ts (v_stream v) -> follows can_shift verbose ts v es l ->
    serve ts (requests es) (v_stream v) = Ok (tokens_in l).
  Proof.
    induction es as [|e es IH]; intros v l Hin Hf; cbn [follows requests] in *; [subst; reflexivity|].
    destruct Hf as (a & l' & -> & Ha & Hf). destruct e as [|s|s sub|c]; cbn [answers] in Ha.
    - subst a. cbn [app tokens_in serve]. cbn [after] in Hf. destruct (yylex1 ts (v_stream v)) as [s r] eqn:Ey.
      pose proof (lex_facts ts Hgood _ _ _ Hin Ey) as (Hin' & _).
      cbn [snd]. assert (E : v_stream (if complete (v_given v) then View s [r] true [] [] (if omissible r then v_single v else pa_etc (fst r)) else View s (v_given v ++ [r]) true (v_hist v) (v_subs v) (v_single v)) = s) by (destruct (complete (v_given v)); reflexivity).
      specialize (IH _ _ ltac:(rewrite E; exact Hin') Hf). rewrite E in IH. rewrite IH. reflexivity.
    - destruct Ha as (r & -> & _). cbn [app tokens_in]. exact (IH (after ts v (E_shift s)) _ Hin Hf).
    - subst a. exact (IH (after ts v (E_reduce s sub)) _ Hin Hf).
    - subst a. cbn [app serve]. cbn [after] in Hf. destruct (advance_ok c (v_stream v) Hin) as (s & E & Hin' & _). rewrite E in *. cbn [obind].
      exact (IH (View s (v_given v) (v_pending v) (v_hist v) (v_subs v) (v_single v)) _ Hin' Hf).
  Qed.
  Lemma trace_stream es : allowed ts view0 es -> exists l, trace can_shift verbose ts es state0 = Ok l /\ serve ts (requests es) stream0 = Ok (tokens_in l).
  Proof.
    intro H. destruct (trace_follows es H) as (l & E & Hf). exists l. split; [exact E|]. apply (follows_stream es view0 l); [|exact Hf].
    unfold inside. cbn. lia.
  Qed.
End Trace.
