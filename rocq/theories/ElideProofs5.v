(* The trace of a parse. *)
From Coq Require Import String List NArith Bool Arith Sorted Lia.
From Verif Require Import Base TokData TokModel StreamModel StreamSpec StreamProofs ErasureProofs ElideModel ElideSpec ElideProofs ElideProofs2 ElideProofs3 ElideProofs4.
Import ListNotations.
Open Scope list_scope.
Notation length := List.length.

Section Trace.
  Variable can_shift : nat -> tok -> bool.
  Variable verbose : bool.
  Variable ts : list node.
  Hypothesis Hgood : Forall good ts.

  Definition val (g : list reply) (k : nat) : option tok := match nth_error g k with Some r => fst r | None => None end.
  Definition is_cu (g : list reply) (j : nat) : bool := match val g j with Some v => tok_eqb v T_CU | None => false end.
  Definition spared (g : list reply) (sh : bool) (k j : nat) : bool := sh && Nat.eqb k (length g - 1) && Nat.eqb j (k - 1) && is_cu g j.
  Definition hit (g : list reply) (k j : nat) (h : nat * nat * bool) : bool :=
    let '(j', s, sh) := h in
    Nat.eqb j' j && match val g k with Some v => can_shift s v | None => false end && negb (spared g sh k j).
  Definition hz (g : list reply) (hist : list (nat * nat * bool)) (k j : nat) : bool := Nat.ltb j k && existsb (hit g k j) hist.

  Lemma is_cu_spec g j : is_cu g j = true <-> option_map fst (nth_error g j) = Some (Some T_CU).
  Proof.
    unfold is_cu, val. destruct (nth_error g j) as [[[v|] n]|]; cbn; split; try discriminate.
    - intro H. apply tok_eqb_eq in H. subst. reflexivity.
    - intro H. injection H as ->. apply tok_eqb_refl.
  Qed.
  Lemma spared_spec g sh k j : spared g sh k j = true <-> sh = true /\ k = length g - 1 /\ j = k - 1 /\ option_map fst (nth_error g j) = Some (Some T_CU).
  Proof. unfold spared. rewrite !andb_true_iff, !Nat.eqb_eq, is_cu_spec. tauto. Qed.
  Lemma hz_spec g hist k j : j < k -> hz g hist k j = true <-> hazard can_shift g hist k j.
  Proof.
    intro Hj. unfold hz. rewrite (proj2 (Nat.ltb_lt j k) Hj). cbn [andb]. rewrite existsb_exists. unfold hazard. split.
    - intros (((j', s), sh) & Hin & Hh). unfold hit in Hh. rewrite !andb_true_iff, Nat.eqb_eq, negb_true_iff in Hh. destruct Hh as ((-> & Hc) & Hs).
      unfold val in Hc. destruct (nth_error g k) as [[[v|] n]|] eqn:Eg; cbn in Hc; try discriminate.
      exists s, sh, v. repeat split; auto.
      intro H. apply spared_spec in H. congruence.
    - intros (s & sh & v & Hin & Hv & Hc & Hs). exists (j, s, sh). split; [exact Hin|]. unfold hit. rewrite Nat.eqb_refl. cbn [andb].
      unfold val. destruct (nth_error g k) as [[[v'|] n]|] eqn:Eg; cbn in Hv; try discriminate. injection Hv as ->. cbn [fst]. rewrite Hc. cbn [andb].
      destruct (spared g sh k j) eqn:E; [|reflexivity]. apply spared_spec in E. contradiction.
  Qed.

  (* the state with a group in the buffer *)
  Record live (st : state) (v : view) (g rest : list reply) : Prop := Live {
    l_shape : shape (st_buf st);
    l_g : g = v_given v ++ rest;
    l_ne : v_given v <> [];
    l_rest : if complete (v_given v) then rest = [] /\ st_stream st = v_stream v /\ v_pending v = true
             else ahead ts (v_stream v) rest (st_stream st) /\ eof (v_stream v) = false;
    l_inside : inside ts (v_stream v);
    l_omit : forall i r, S i < length g -> nth_error g i = Some r -> omissible r = true;
    l_val : forall i r, 0 < i -> nth_error g i = Some r -> fst r <> None;
    l_n : t_n (st_buf st) = length g;
    l_max : length g <= t_max (st_buf st);
    l_rp : t_rp (st_buf st) = length (v_given v);
    l_sp : t_sp (st_buf st) = place v;
    l_holds : holds (st_buf st) g;
    l_flags : flags_ok (st_buf st) g (v_subs v);
    l_bits : bits (t_conflicts (st_buf st)) (length g) (hz g (v_hist v));
    l_cur : st_cur st = v_single v;
    l_prev : 2 <= length (v_given v) -> st_prev st = v_single v }.
  (* no group: at the beginning or after the last token of a group was shifted *)
  Record dead (st : state) (v : view) : Prop := Dead {
    d_shape : shape (st_buf st);
    d_complete : complete (v_given v) = true;
    d_pending : v_pending v = false;
    d_stream : st_stream st = v_stream v;
    d_inside : inside ts (v_stream v);
    d_n : t_n (st_buf st) <= t_rp (st_buf st);
    d_rp : t_rp (st_buf st) = length (v_given v);
    d_sp : t_sp (st_buf st) = length (v_given v);
    d_max : length (v_given v) <= t_max (st_buf st);
    d_cur : st_cur st = v_single v }.
  Definition inv (st : state) (v : view) : Prop := (exists g rest, live st v g rest) \/ dead st v.

  Lemma inv0 : inv state0 view0.
  Proof. right. constructor; cbn; auto with arith; [apply shape0|unfold inside; cbn; lia]. Qed.

  (* reading a new group *)
  Lemma lex_new st v : shape (st_buf st) -> complete (v_given v) = true -> st_stream st = v_stream v -> inside ts (v_stream v) ->
    t_n (st_buf st) <= t_rp (st_buf st) -> st_cur st = v_single v ->
    exists st', yylex ts st = Ok (st', snd (yylex1 ts (v_stream v))) /\ exists g rest, live st' (after ts v E_lex) g rest.
  Proof.
    intros Hsh Hc Hs Hin Hn Hcur. unfold yylex. destruct (Nat.ltb_spec (t_rp (st_buf st)) (t_n (st_buf st))) as [|_]; [lia|].
    set (t0 := Tokbuf 0 (t_max (st_buf st)) 0 (t_sp (st_buf st)) (t_buf (st_buf st)) (t_conflicts (st_buf st)) (t_flags (st_buf st))).
    assert (Hsh0 : shape t0) by exact Hsh. rewrite Hs.
    assert (P1 : remaining ts (v_stream v) < length ts + 2) by (unfold remaining; destruct (eof (v_stream v)); lia).
    assert (P2 : t_n t0 <= t_max t0) by (cbn; lia).
    assert (P3 : holds t0 []) by (intros i r Hi; destruct i; discriminate).
    assert (P4 : flags_ok t0 [] []) by (intros i r Hi; destruct i; discriminate).
    destruct (fill_ok ts Hgood (length ts + 2) (v_stream v) t0 [] Hin P1 Hsh0 eq_refl P2 P3 P4)
      as (t & s' & g & Hfill & Ha & Hin' & Hsht & Hnt & Hmt & Hht & Hft & Hrp & Hsp).
    rewrite Hfill. cbn [obind]. cbn [app length Nat.add] in Hnt, Hht, Hft.
    pose proof Hsht as (Hq & Hlb & Hlf & Hlc & Hrows).
    destruct (clear_ok (t_conflicts t) Hrows (t_n t)) as (c & -> & Hcl & Hcr & Hcb); [lia|]. cbn [obind].
    pose proof (ahead_group ts _ _ _ Ha) as (a & z & Eg & Hfa & Hz).
    assert (Hval : Forall (fun r => fst r <> None) (tl g)) by exact (proj2 (ahead_values ts Hgood _ _ _ Hin Ha)).
    assert (Hcase : exists s1 r, yylex1 ts (v_stream v) = (s1, r) /\
      ((omissible r = false /\ g = [r] /\ s1 = s') \/ (omissible r = true /\ exists g1, g = r :: g1 /\ ahead ts s1 g1 s'))).
    { clear - Ha. inversion Ha; subst; eexists _, _; (split; [eassumption|]); [left|right]; eauto. }
    destruct Hcase as (s1 & r & Hy & [(Ho & Eg' & Es)|(Ho & g1 & Eg' & Ha1)]).
    - (* one token *)
      clear Eg. subst g s1. rewrite (get_ok _ _ _ (Hht 0 r eq_refl)). cbn [obind init]. rewrite Hnt. cbn [length Nat.eqb].
      eexists. split; [rewrite Hy; reflexivity|]. cbn [after]. rewrite Hy, Hc, Ho. exists [r], []. 
      constructor; cbn [st_buf st_stream st_cur st_prev v_given v_stream v_pending v_hist v_subs v_single t_n t_max t_rp t_sp t_buf t_conflicts t_flags length app].
      + unfold shape. cbn. repeat split; auto. congruence.
      + reflexivity.
      + discriminate.
      + cbn [complete]. rewrite Ho. cbn. auto.
      + exact Hin'.
      + intros i y Hi. lia.
      + intros i y Hi Hy'. destruct i as [|[|i]]; [lia|discriminate..].
      + reflexivity.
      + rewrite Hnt in Hmt. exact Hmt.
      + reflexivity.
      + reflexivity.
      + exact Hht.
      + exact Hft.
      + rewrite Hnt in Hcb. eapply bits_ext; [|exact Hcb]. intros k j _ _. unfold hz. cbn. rewrite andb_false_r. reflexivity.
      + reflexivity.
      + intro. lia.
    - (* more *)
      rewrite Eg' in Hht, Hft, Hnt, Hval. rewrite (get_ok _ _ _ (Hht 0 r eq_refl)). cbn [obind init].
      assert (Hg1 : length g1 > 0) by (inversion Ha1; cbn; lia).
      destruct (Nat.eqb_spec 1 (t_n t)) as [E|_]; [rewrite Hnt in E; cbn in E; lia|].
      eexists. split; [rewrite Hy; reflexivity|]. cbn [after]. rewrite Hy, Hc, Ho. exists (r :: g1), g1.
      destruct (lex_facts ts Hgood _ _ _ Hin Hy) as (Hi1 & _ & _ & Hom). destruct (Hom Ho) as (_ & E2 & _).
      constructor; cbn [st_buf st_stream st_cur st_prev v_given v_stream v_pending v_hist v_subs v_single t_n t_max t_rp t_sp t_buf t_conflicts t_flags app].
      + unfold shape. cbn. repeat split; auto. congruence.
      + reflexivity.
      + discriminate.
      + cbn [complete]. rewrite Ho. cbn. auto.
      + exact Hi1.
      + intros i y Hi Hy'. rewrite <- Eg', Eg in Hi, Hy'. rewrite app_length in Hi. cbn [length] in Hi. rewrite nth_error_app1 in Hy' by lia.
        rewrite Forall_forall in Hfa. apply Hfa. eapply nth_error_In; eauto.
      + intros i y Hi Hy'. destruct i as [|i]; [lia|]. cbn [nth_error] in Hy'. cbn [tl] in Hval. rewrite Forall_forall in Hval. apply Hval. eapply nth_error_In; eauto.
      + exact Hnt.
      + rewrite <- Hnt. exact Hmt.
      + reflexivity.
      + reflexivity.
      + exact Hht.
      + exact Hft.
      + rewrite Hnt in Hcb. eapply bits_ext; [|exact Hcb]. intros k j _ _. unfold hz. cbn. rewrite andb_false_r. reflexivity.
      + exact Hcur.
      + cbn [length]. lia.
  Qed.

  Lemma nth_app_mid {A} (a : list A) x b : nth_error (a ++ x :: b) (length a) = Some x.
  Proof. rewrite nth_error_app2, Nat.sub_diag by lia. reflexivity. Qed.

  Lemma lex_more st v g rest : live st v g rest -> complete (v_given v) = false ->
    exists st', yylex ts st = Ok (st', snd (yylex1 ts (v_stream v))) /\ exists g' rest', live st' (after ts v E_lex) g' rest'.
  Proof.
    intros [Hsh Hg Hne Hrest Hin Homit Hval Hn Hmax Hrp Hsp Hh Hf Hb Hcur Hprev] Hc. rewrite Hc in Hrest. destruct Hrest as (Ha & Heof).
    assert (Hr1 : exists r rest1, rest = r :: rest1) by (inversion Ha; eauto). destruct Hr1 as (r & rest1 & ->).
    unfold yylex. destruct (Nat.ltb_spec (t_rp (st_buf st)) (t_n (st_buf st))) as [_|Hge].
    2: { rewrite Hrp, Hn, Hg, app_length in Hge. cbn in Hge. lia. }
    assert (Hnth : nth_error g (length (v_given v)) = Some r) by (rewrite Hg; apply nth_app_mid).
    rewrite Hrp. rewrite (get_ok _ _ _ (Hh _ _ Hnth)). cbn [obind init].
    assert (Hy : exists s1, yylex1 ts (v_stream v) = (s1, r) /\
       if omissible r then ahead ts s1 rest1 (st_stream st) else rest1 = [] /\ s1 = st_stream st).
    { inversion Ha as [s0 s1 r0 Hy Ho|s0 s1 r0 g1 s2 Hy Ho Ha1]; subst; [exists (st_stream st)|exists s1]; rewrite Ho; auto. }
    destruct Hy as (s1 & Hy & Hcase). eexists. split; [rewrite Hy; reflexivity|]. cbn [after]. rewrite Hy, Hc.
    destruct (lex_facts ts Hgood _ _ _ Hin Hy) as (Hi1 & _ & _ & Hom).
    exists g, rest1.
    constructor; cbn [st_buf st_stream st_cur st_prev v_given v_stream v_pending v_hist v_subs v_single t_n t_max t_rp t_sp t_buf t_conflicts t_flags].
    - exact Hsh.
    - rewrite Hg, <- app_assoc. reflexivity.
    - destruct (v_given v); discriminate.
    - rewrite complete_snoc. destruct (omissible r); cbn [negb].
      + split; [exact Hcase|]. apply Hom. reflexivity.
      + destruct Hcase as (-> & ->). auto.
    - exact Hi1.
    - exact Homit.
    - exact Hval.
    - exact Hn.
    - exact Hmax.
    - rewrite app_length. cbn. lia.
    - unfold place. cbn [v_pending v_given]. rewrite app_length. cbn. lia.
    - exact Hh.
    - exact Hf.
    - exact Hb.
    - exact Hcur.
    - intros _. exact Hcur.
  Qed.

  Lemma lex_inv st v : inv st v -> exists st', yylex ts st = Ok (st', snd (yylex1 ts (v_stream v))) /\ inv st' (after ts v E_lex).
  Proof.
    intros [(g & rest & HL)|HD].
    - destruct (complete (v_given v)) eqn:Ec.
      + pose proof HL as [Hsh Hg Hne Hrest Hin Homit Hval Hn Hmax Hrp Hsp Hh Hf Hb Hcur Hprev]. rewrite Ec in Hrest. destruct Hrest as (-> & Hs & _).
        destruct (lex_new st v) as (st' & E & HL'); auto.
        { rewrite Hn, Hrp, Hg, app_nil_r. lia. }
        exists st'. split; [exact E|left; exact HL'].
      + destruct (lex_more st v g rest HL Ec) as (st' & E & HL'). exists st'. split; [exact E|left; exact HL'].
    - destruct HD. destruct (lex_new st v) as (st' & E & HL'); auto. exists st'. split; [exact E|left; exact HL'].
  Qed.
End Trace.
