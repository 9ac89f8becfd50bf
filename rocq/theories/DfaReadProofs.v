(* The NFA read from a description is well formed; the whole generator (C27). *)
From Coq Require Import String List Arith NArith Bool Lia FMapPositive.
From Coq Require Import ZifyBool ZifyN ZifyNat.
From Verif Require Import Base Arr DfaModel DfaSpec DfaTabProofs DfaMinProofs DfaSubsetProofs DfaBuildProofs.
Import ListNotations.
Open Scope N_scope.

(* ---- blocks ----------------------------------------------------------------- *)

Definition trans_ok (nt : N) (t : option N * string) : Prop :=
  match fst t with Some k => k < nt | None => True end.

Definition block_ok (nt : N) (b : block) : Prop :=
  Forall (fun s => Forall (trans_ok nt) (b_trans s)) (bl_states b) /\
  forall k i, PositiveMap.find k (bl_index b) = Some i -> (i < List.length (bl_states b))%nat.

(* [b'] is [b] with states added and changed, all transitions good *)
Definition grows (nt : N) (b b' : block) : Prop :=
  block_ok nt b -> block_ok nt b' /\ (List.length (bl_states b) <= List.length (bl_states b'))%nat.

Lemma grows_refl nt b : grows nt b b.
Proof. intro H. auto. Qed.

Lemma grows_trans nt a b c : grows nt a b -> grows nt b c -> grows nt a c.
Proof.
  intros H1 H2 Ha. destruct (H1 Ha) as [Hb L1]. destruct (H2 Hb) as [Hc L2]. split; [exact Hc|lia].
Qed.

Lemma lookup_state_grows nt b name b' i : lookup_state b name = (b', i) ->
  grows nt b b' /\ (block_ok nt b -> (i < List.length (bl_states b'))%nat).
Proof.
  unfold lookup_state, find_state. destruct (PositiveMap.find (name_key name 1) (bl_index b)) as [k|] eqn:E;
    intro H; injection H as <- <-.
  - split; [apply grows_refl|]. intros [_ H]. eapply H; eauto.
  - cbn [bl_states]. rewrite app_length. cbn [List.length]. split; [|lia].
    intros [Hb Hi]. unfold block_ok. cbn [bl_states bl_index]. rewrite app_length. cbn [List.length].
    repeat split; [| |lia].
    + apply Forall_app. split; [exact Hb|]. repeat constructor.
    + intros k i H. destruct (Pos.eq_dec k (name_key name 1)) as [->|N].
      * rewrite PositiveMap.gss in H. injection H as <-. lia.
      * rewrite PositiveMap.gso in H by exact N. apply Hi in H. lia.
Qed.

Lemma upd_nth_length f : forall l i, List.length (upd_nth f l i) = List.length l.
Proof. induction l; intros [|i]; simpl; auto. Qed.

Lemma upd_nth_forall (P : bstate -> Prop) f : (forall s, P s -> P (f s)) ->
  forall l i, Forall P l -> Forall P (upd_nth f l i).
Proof.
  intros Hf. induction l as [|s l IH]; intros i H; [destruct i; exact H|].
  inversion H; subst. destruct i; cbn [upd_nth]; constructor; auto.
Qed.

Lemma upd_state_grows nt b i f :
  (forall s, Forall (trans_ok nt) (b_trans s) -> Forall (trans_ok nt) (b_trans (f s))) ->
  grows nt b (upd_state b i f).
Proof.
  intros Hf [Hb Hi]. unfold upd_state, block_ok. cbn [bl_states bl_index].
  rewrite upd_nth_length. repeat split; [|exact Hi|lia].
  apply upd_nth_forall; assumption.
Qed.

Lemma push_grows nt b i t d : trans_ok nt (t, d) -> grows nt b (push_trans b i t d).
Proof. intro H. apply upd_state_grows. intros s Hs. cbn [b_trans]. constructor; assumption. Qed.

Lemma fold_grows {X} nt (f : block -> X -> outcome block) :
  forall l, (forall b x b', In x l -> f b x = Ok b' -> grows nt b b') ->
  forall b0 b', fold_left (fun b x => do b <- b; f b x) l b0 = Ok b' ->
  exists b, b0 = Ok b /\ grows nt b b'.
Proof.
  induction l as [|x l IH]; intros Hf b0 b' H; cbn [fold_left] in H.
  - exists b'. split; [exact H|apply grows_refl].
  - destruct (IH (fun b y c Hy => Hf b y c (or_intror Hy)) _ _ H) as (b1 & E & G).
    destruct b0 as [b| | | |]; cbn [obind] in E; try discriminate.
    exists b. split; [reflexivity|]. eapply grows_trans; [|exact G].
    eapply Hf; [left; reflexivity|exact E].
Qed.

Lemma lookup_token_lt name : forall toks i k, lookup_token toks name i = Some k ->
  i <= k < i + N.of_nat (List.length toks).
Proof.
  induction toks as [|t toks IH]; intros i k H; cbn [lookup_token] in H; [discriminate|].
  cbn [List.length]. destruct (String.eqb t name).
  - injection H as <-. lia.
  - apply IH in H. lia.
Qed.

Section Reading.
  Variable toks : list string.
  Variable ab : list (string * list string).
  Variable bs : list (string * block).
  Let nt := N.of_nat (List.length toks).
  Hypothesis Hbs : Forall (fun p => block_ok nt (snd p)) bs.

  Lemma add_transition_grows : forall fuel b i str dest b',
    add_transition fuel toks ab b i str dest = Ok b' -> grows nt b b'.
  Proof.
    induction fuel as [|fuel IH]; intros b i str dest b' H; cbn [add_transition] in H; [discriminate|].
    destruct (lookup_abbrev ab str) as [rhs|].
    - apply (fold_grows nt (fun b s => add_transition fuel toks ab b i s dest)) in H.
      + destruct H as (b1 & E & G). injection E as <-. exact G.
      + intros b1 x b2 _ E. eapply IH; eauto.
    - destruct (lookup_token toks str 0) as [t|] eqn:E; [|discriminate]. injection H as <-.
      apply push_grows. apply lookup_token_lt in E. cbn. unfold nt. lia.
  Qed.

  Lemma add_transition_opt_grows b i str dest b' :
    add_transition_opt toks ab b i str dest = Ok b' -> grows nt b b'.
  Proof.
    destruct str; cbn [add_transition_opt]; intro H; [eapply add_transition_grows; eauto|].
    injection H as <-. apply push_grows. exact I.
  Qed.

  Lemma add_transitions_grows b i tokens dest b' :
    add_transitions toks ab b i tokens dest = Ok b' -> grows nt b b'.
  Proof.
    intro H. apply (fold_grows nt (fun b s => add_transition_opt toks ab b i s dest)) in H.
    - destruct H as (b1 & E & G). injection E as <-. exact G.
    - intros b1 x b2 _ E. eapply add_transition_opt_grows; eauto.
  Qed.

  Lemma fresh_state_grows b b' name i : fresh_state b = (b', name, i) ->
    grows nt b b'.
  Proof.
    unfold fresh_state. destruct (lookup_state _ _) as [b1 j] eqn:E. intro H. injection H as <- <- <-.
    apply (lookup_state_grows nt) in E. destruct E as [G _].
    intro Hb. apply G. exact Hb.
  Qed.

  Lemma add_internal_grows b i tokens b' j :
    add_transitions_to_internal toks ab b i tokens = Ok (b', j) -> grows nt b b'.
  Proof.
    unfold add_transitions_to_internal. destruct (fresh_state b) as [[b1 name] k] eqn:E.
    apply fresh_state_grows in E. rename E into G.
    destruct (add_transitions toks ab b1 i tokens name) as [b2| | | |] eqn:E2; try discriminate.
    cbn [obind]. intro H. injection H as <- <-. eapply grows_trans; [exact G|].
    eapply add_transitions_grows; eauto.
  Qed.

  Lemma copy_state_grows inst b s b' : Forall (trans_ok nt) (b_trans s) ->
    copy_state inst b s = Ok b' -> grows nt b b'.
  Proof.
    intros Hs H. unfold copy_state in H.
    destruct (negb (buffer_ok _)); [discriminate|]. destruct (negb (forallb _ _)); [discriminate|].
    destruct (lookup_state b _) as [b1 i] eqn:E. apply (lookup_state_grows nt) in E. destruct E as [G _].
    injection H as <-. eapply grows_trans; [exact G|]. apply upd_state_grows. intros d Hd. cbn [b_trans].
    revert Hs Hd. generalize (b_trans d). induction (b_trans s) as [|t l IH]; intros acc Hs Hd; cbn [fold_left].
    - exact Hd.
    - inversion Hs; subst. apply IH; [assumption|]. constructor; assumption.
  Qed.

  Lemma instantiate_grows me b master inst b' :
    instantiate_block bs me b master inst = Ok b' -> grows nt b b'.
  Proof.
    unfold instantiate_block. destruct (String.eqb master me).
    - destruct (bl_states b); [|discriminate]. intro H. injection H as <-. apply grows_refl.
    - destruct (lookup_block bs master) as [m|] eqn:E; [|discriminate]. intro H.
      assert (Hm : block_ok nt m).
      { clear H. revert E. induction bs as [|[k v] l IH]; cbn [lookup_block]; [discriminate|].
        inversion Hbs; subst. destruct (String.eqb k master); [|apply IH; assumption].
        intro E. injection E as <-. assumption. }
      apply (fold_grows nt (fun b s => copy_state inst b s)) in H.
      + destruct H as (b1 & E1 & G). injection E1 as <-. exact G.
      + intros b1 x b2 Hx E1. eapply copy_state_grows; [|exact E1].
        destruct Hm as [Hm _]. rewrite Forall_forall in Hm. apply Hm. exact Hx.
  Qed.

  Lemma add_inline_grows me i result b ib b' :
    add_inline toks ab bs me i result b ib = Ok b' -> grows nt b b'.
  Proof.
    destruct ib as [[[type inn] out]|]; cbn [add_inline]; intro H.
    - destruct (instantiate_block bs me _ type _) as [b1| | | |] eqn:E1; try discriminate. cbn [obind] in H.
      apply instantiate_grows in E1.
      destruct (lookup_state b1 _) as [b2 o] eqn:E2. apply (lookup_state_grows nt) in E2. destruct E2 as [G2 _].
      destruct (add_transition_opt toks ab b2 i None _) as [b3| | | |] eqn:E3; try discriminate. cbn [obind] in H.
      apply add_transition_opt_grows in E3, H.
      eapply grows_trans; [|eapply grows_trans; [exact G2|eapply grows_trans; [exact E3|exact H]]].
      intro Hb. apply E1. exact Hb.
    - eapply add_transition_opt_grows; eauto.
  Qed.

  Lemma add_inline_blocks_grows me b i l b' j :
    add_inline_block_transitions toks ab bs me b i l = Ok (b', j) -> grows nt b b'.
  Proof.
    unfold add_inline_block_transitions. destruct (fresh_state b) as [[b1 name] k] eqn:E.
    apply fresh_state_grows in E. rename E into G.
    destruct (fold_left _ (rev l) (Ok b1)) as [b2| | | |] eqn:E2; try discriminate. cbn [obind].
    intro H. injection H as <- <-.
    apply (fold_grows nt (fun b ib => add_inline toks ab bs me i name b ib)) in E2.
    - destruct E2 as (b3 & E3 & G3). injection E3 as <-. eapply grows_trans; eauto.
    - intros c x c' _ Ec. eapply add_inline_grows; eauto.
  Qed.

  Lemma add_steps_grows me : forall l b addto prev r,
    add_steps toks ab bs me b addto prev l = Ok r -> grows nt b (fst (fst r)).
  Proof.
    induction l as [|st l IH]; intros b addto prev r H; cbn [add_steps] in H.
    - injection H as <-. apply grows_refl.
    - destruct (match prev with None => _ | Some _ => _ end) as [[b1 a1]| | | |] eqn:E; try discriminate.
      cbn [obind] in H.
      assert (G1 : grows nt b b1).
      { destruct prev; [eapply add_internal_grows; eauto|]. injection E as <- <-. apply grows_refl. }
      eapply grows_trans; [exact G1|]. destruct st as [o|ibs].
      + eapply IH; eauto.
      + destruct (add_inline_block_transitions toks ab bs me b1 a1 ibs) as [[b2 a2]| | | |] eqn:E2; try discriminate.
        cbn [obind] in H. eapply grows_trans; [eapply add_inline_blocks_grows; eauto|]. eapply IH; eauto.
  Qed.

  Lemma add_trans_decl_grows me b cur t b' :
    add_trans_decl toks ab bs me b cur t = Ok b' -> grows nt b b'.
  Proof.
    unfold add_trans_decl. destruct (add_steps toks ab bs me b cur None (fst t)) as [[[b1 a1] p1]| | | |] eqn:E; try discriminate.
    cbn [obind]. apply add_steps_grows in E. cbn [fst] in E. destruct (snd t) as [ds|tag]; intro H.
    - apply (fold_grows nt (fun b d => add_transitions toks ab b a1 p1 d)) in H.
      + destruct H as (b3 & E3 & G3). injection E3 as <-. eapply grows_trans; eauto.
      + intros c x c' _ Ec. eapply add_transitions_grows; eauto.
    - destruct (add_transitions_to_internal toks ab b1 a1 p1) as [[b2 j]| | | |] eqn:E2; try discriminate.
      cbn [obind] in H. injection H as <-. eapply grows_trans; [exact E|].
      eapply grows_trans; [eapply add_internal_grows; eauto|]. apply upd_state_grows. auto.
  Qed.

  Lemma add_state_decl_grows me b sd b' i :
    add_state_decl toks ab bs me b sd = Ok (b', i) -> block_ok nt b ->
    grows nt b b' /\ (i < List.length (bl_states b'))%nat.
  Proof.
    unfold add_state_decl. destruct (lookup_state b (sd_name sd)) as [b1 cur] eqn:E.
    apply (lookup_state_grows nt) in E. destruct E as [G1 L1].
    set (b2 := match sd_attr sd with Some _ => _ | None => _ end).
    assert (G2 : grows nt b1 b2).
    { unfold b2. destruct (sd_attr sd); [apply upd_state_grows; auto|apply grows_refl]. }
    destruct (fold_left _ (sd_trans sd) (Ok b2)) as [b3| | | |] eqn:E3; try discriminate. cbn [obind].
    intros H Hb. injection H as <- <-.
    apply (fold_grows nt (fun b t => add_trans_decl toks ab bs me b cur t)) in E3.
    - destruct E3 as (b4 & E4 & G4). injection E4 as <-. split.
      + eapply grows_trans; [exact G1|]. eapply grows_trans; eauto.
      + specialize (L1 Hb). destruct (G1 Hb) as [O1 _]. destruct (G2 O1) as [O2 K2]. destruct (G4 O2) as [_ K4]. lia.
    - intros c x c' _ Ec. eapply add_trans_decl_grows; eauto.
  Qed.

  Lemma fixup_grows b : grows nt b (fixup_state_refs b).
  Proof.
    unfold fixup_state_refs. generalize (bl_states b). intro l. revert b.
    induction l as [|s l IH]; intro b; cbn [fold_left]; [apply grows_refl|].
    eapply grows_trans; [|apply IH]. generalize (b_trans s). intro m. revert b.
    induction m as [|t m IHm]; intro b; cbn [fold_left]; [apply grows_refl|].
    eapply grows_trans; [|apply IHm]. destruct (lookup_state b (snd t)) as [b' i] eqn:E.
    apply (lookup_state_grows nt) in E. apply E.
  Qed.
End Reading.

(* ---- declarations ------------------------------------------------------------ *)

Lemma trans_ok_mono nt nt' t : nt <= nt' -> trans_ok nt t -> trans_ok nt' t.
Proof. unfold trans_ok. destruct (fst t); [lia|auto]. Qed.

Lemma block_ok_mono nt nt' b : nt <= nt' -> block_ok nt b -> block_ok nt' b.
Proof.
  intros H [Hb Hi]. split; [|exact Hi]. eapply Forall_impl; [|exact Hb]. intros s. apply Forall_impl. intros t.
  apply trans_ok_mono. exact H.
Qed.

Definition pstate_ok (p : pstate) : Prop :=
  Forall (fun q => block_ok (N.of_nat (List.length (p_tokens p))) (snd q)) (p_blocks p) /\
  match p_cur p with
  | None => True
  | Some (bn, i) => exists b, lookup_block (p_blocks p) bn = Some b /\ (i < List.length (bl_states b))%nat
  end.

Lemma add_token_grows : forall l t0 t', fold_left add_token_decl l t0 = Ok t' ->
  exists t, t0 = Ok t /\ (List.length t <= List.length t')%nat.
Proof.
  induction l as [|x l IH]; intros t0 t' H; cbn [fold_left] in H.
  - exists t'. auto.
  - destruct (IH _ _ H) as (t1 & E & L). unfold add_token_decl in E.
    destruct t0 as [t| | | |]; cbn [obind] in E; try discriminate.
    destruct (lookup_token t x 0); [discriminate|]. injection E as <-. exists t. split; [reflexivity|].
    rewrite app_length in L. lia.
Qed.

Lemma lookup_block_app bs n b : lookup_block bs n = None -> lookup_block (bs ++ [(n, b)]) n = Some b.
Proof.
  induction bs as [|[k v] bs IH]; cbn [lookup_block app].
  - intros _. rewrite String.eqb_refl. reflexivity.
  - destruct (String.eqb k n); [discriminate|exact IH].
Qed.

Lemma read_block_ok p name insts states p' :
  read_block p name insts states = Ok p' -> pstate_ok p -> pstate_ok p'.
Proof.
  intros H [Hbs _]. unfold read_block in H.
  destruct (lookup_block (p_blocks p) name) eqn:En; [discriminate|].
  set (nt := N.of_nat (List.length (p_tokens p))) in *.
  destruct (fold_left _ insts (Ok create_block)) as [b1| | | |] eqn:E1; try discriminate. cbn [obind] in H.
  assert (O1 : block_ok nt b1).
  { apply (fold_grows nt (fun b ic => instantiate_block (p_blocks p) name b (snd ic) (fst ic))) in E1.
    - destruct E1 as (b & E & G). injection E as <-. apply G. split; [constructor|]. intros k i Q. rewrite PositiveMap.gempty in Q. discriminate.
    - intros c x c' _ Ec. eapply instantiate_grows; eauto. }
  destruct (fold_left _ states (Ok (b1, None))) as [[b2 cur]| | | |] eqn:E2; try discriminate. cbn [obind] in H.
  injection H as <-.
  assert (S : forall l bc0 b' cur',
    fold_left (fun (bc : outcome (block * option (string * nat))) sd =>
                     do bc <- bc;
                     do (b, i) <- add_state_decl (p_tokens p) (p_abbrevs p) (p_blocks p)
                                    name (fst bc) sd;
                     Ok (b, Some (name, i))) l bc0 = Ok (b', cur') ->
    exists b c, bc0 = Ok (b, c) /\
     (block_ok nt b -> match c with None => True | Some (bn, i) => bn = name /\ (i < List.length (bl_states b))%nat end ->
      block_ok nt b' /\ match cur' with None => True | Some (bn, i) => bn = name /\ (i < List.length (bl_states b'))%nat end)).
  { induction l as [|sd l IH]; intros bc0 b' cur' H; cbn [fold_left] in H.
    - exists b', cur'. auto.
    - destruct (IH _ _ _ H) as (b & c & E & K).
      destruct bc0 as [[b0 c0]| | | |]; cbn [obind fst] in E; try discriminate.
      destruct (add_state_decl _ _ _ name b0 sd) as [[b3 i]| | | |] eqn:Ea; cbn [obind] in E; try discriminate.
      injection E as <- <-. exists b0, c0. split; [reflexivity|]. intros Ob _.
      destruct (add_state_decl_grows _ _ _ Hbs _ _ _ _ _ Ea Ob) as [G L]. apply K.
      + apply G. exact Ob.
      + auto. }
  destruct (S _ _ _ _ E2) as (b & c & E & K). injection E as <- <-. destruct (K O1 I) as [O2 C2].
  destruct (fixup_grows (p_tokens p) b2 O2) as [O3 L3].
  split; cbn [p_tokens p_blocks p_cur].
  - apply Forall_app. split; [exact Hbs|]. constructor; [exact O3|constructor].
  - destruct cur as [[bn i]|]; [|exact I]. destruct C2 as [-> C2].
    exists (fixup_state_refs b2). split; [apply lookup_block_app; exact En|lia].
Qed.

Lemma read_decl_ok : forall ds p0 p', fold_left read_decl ds p0 = Ok p' ->
  exists p, p0 = Ok p /\ (pstate_ok p -> pstate_ok p').
Proof.
  induction ds as [|d ds IH]; intros p0 p' H; cbn [fold_left] in H.
  - exists p'. auto.
  - destruct (IH _ _ H) as (p1 & E & K). destruct p0 as [p| | | |]; cbn [read_decl obind] in E; try discriminate.
    exists p. split; [reflexivity|]. intro Hp. apply K. destruct d as [l|n l|n i s|r|r].
    + destruct (fold_left add_token_decl l (Ok (p_tokens p))) as [t| | | |] eqn:Et; try discriminate.
      cbn [obind] in E. injection E as <-. apply add_token_grows in Et. destruct Et as (t0 & E0 & L). injection E0 as <-.
      destruct Hp as [H1 H2]. split; cbn [p_tokens p_blocks p_cur]; [|exact H2].
      eapply Forall_impl; [|exact H1]. intros q. apply block_ok_mono. lia.
    + injection E as <-. exact Hp.
    + eapply read_block_ok; eauto.
    + injection E as <-. exact Hp.
    + injection E as <-. exact Hp.
Qed.

(* what the subset construction relies on *)
Lemma read_description_wf ds src : read_description ds = Ok src ->
  wf_nfa (s_ntok src) (s_nfa src) /\ s_start src < N.of_nat (List.length (s_nfa src)).
Proof.
  unfold read_description.
  destruct (fold_left read_decl ds _) as [p| | | |] eqn:E; try discriminate. cbn [obind].
  apply read_decl_ok in E. destruct E as (p0 & E0 & K). injection E0 as <-.
  assert (Hp : pstate_ok p) by (apply K; split; [constructor|exact I]).
  destruct (p_cur p) as [[bn i]|] eqn:Ec; [|discriminate].
  destruct (lookup_block (p_blocks p) bn) as [b|] eqn:Eb; [|discriminate]. intro H. injection H as <-.
  destruct Hp as [H1 H2]. rewrite Ec in H2. destruct H2 as (b' & Eb' & L). rewrite Eb in Eb'. injection Eb' as <-.
  cbn [s_ntok s_nfa s_start]. rewrite map_length. split; [|lia].
  assert (Hb : block_ok (N.of_nat (List.length (p_tokens p))) b).
  { clear -H1 Eb. induction (p_blocks p) as [|[k v] l IH]; cbn [lookup_block] in Eb; [discriminate|].
    inversion H1; subst. destruct (String.eqb k bn); [|apply IH; assumption]. injection Eb as <-. assumption. }
  intros s st l d Hs Hin. rewrite nth_error_map in Hs.
  destruct (nth_error (bl_states b) (N.to_nat s)) as [bst|] eqn:Es; [|discriminate]. injection Hs as <-.
  cbn [resolve n_trans] in Hin. apply in_map_iff in Hin. destruct Hin as (t & Et & Ht). injection Et as <- <-.
  rewrite map_length. split.
  - destruct (find_state b (snd t)) as [k|] eqn:Ek; [apply Hb in Ek|]; lia.
  - destruct Hb as [Hb _]. rewrite Forall_forall in Hb. specialize (Hb _ (nth_error_In _ _ Es)).
    rewrite Forall_forall in Hb. exact (Hb t Ht).
Qed.

(* ---- determinisation --------------------------------------------------------- *)

Theorem raw_dfa_ok src d :
  wf_nfa (s_ntok src) (s_nfa src) -> s_start src < N.of_nat (List.length (s_nfa src)) ->
  raw_dfa src = Ok d ->
  d <> [] /\ Forall (fun x => List.length (d_map x) = N.to_nat (s_ntok src)) d /\
  closed_table (map d_map d) /\
  forall w,
    match walk (map d_map d) (Some 0) w with
    | None => ~ alive src w
    | Some i => alive src w /\
        exists x re ra, nth_error d (N.to_nat i) = Some x /\
          exit_rule src w re /\ attr_rule src w ra /\
          d_result x = option_map r_result re /\ d_attr x = option_map r_result ra
    end.
Proof.
  intros Hwf Hst H. unfold raw_dfa in H.
  destruct (build_dfa src) as [[d0 amb]| | | |] eqn:E; try discriminate. cbn [obind] in H.
  destruct amb; [discriminate|]. injection H as ->.
  unfold build_dfa in E.
  destruct (epsilon_closure_ok (s_nfa src)) as (eclo & Ee & He).
  { intros s st l x H1 H2. apply (Hwf s st l x H1 H2). }
  rewrite Ee in E. cbn [obind] in E. fold (row_of eclo (s_start src)) in E.
  destruct (add_dfa src _ _ _ (row_of eclo (s_start src))) as [st| | | |] eqn:Ea; try discriminate.
  cbn [obind] in E.
  destruct (build_start src Hwf Hst eclo He st Ea) as [B D].
  destruct (build_loop_ok src Hwf Hst eclo He st B D) as (r & Er & F).
  rewrite Er in E. subst r. cbn [bfinal] in F. destruct F as (bms & F1 & F2 & F3).
  assert (Hrun := walk_some src Hwf Hst eclo He d bms F1 F2 F3).
  assert (Halive := walk_alive src Hwf Hst eclo He d bms F1 F2 F3).
  split; [|split; [|split]].
  - destruct d; [|discriminate]. destruct bms; [discriminate F2|discriminate F1].
  - apply Forall_forall. intros x Hx. apply In_nth_error in Hx. destruct Hx as [i Hi].
    eapply (map_length_ok src); eauto.
  - eapply (run_closed src); eauto.
  - intro w. destruct (walk (map d_map d) (Some 0) w) as [i|] eqn:Ew.
    + destruct (Hrun w i Ew) as [(bm & Eb & Hz & Hb) Hne]. split.
      * split; [|exact Hne]. exists (N.log2 bm). apply Hb. apply N.bit_log2. exact Hz.
      * destruct (node_of src Hst eclo He d bms F1 F3 _ _ Eb) as (x & Ex & Lab & _).
        destruct (labels_rules src bm w _ _ _ Hb Lab) as (re & ra & R1 & R2 & R3 & R4 & _).
        exists x, re, ra. auto.
    + intros [[s Hs] Hne]. destruct (Halive w s Hs Hne) as [i Hi]. rewrite Hi in Ew. discriminate.
Qed.

(* The generator as a whole: for every description it accepts, the emitted
   tables, run by the emitted lookup routine, answer for every token string
   what the description says. *)
Theorem dfasyn_ok ds tb : dfasyn ds = Ok tb ->
  exists src, read_description ds = Ok src /\
  (s_ntok src <= 256 -> N.of_nat (List.length (t_exit tb)) <= 32768 ->
   N.of_nat (List.length (t_exit tb)) * s_ntok src <= 65535 ->
   forall w, exists o, run_tables tb (Some 0) w = Ok o /\
     answers src tb w o).
Proof.
  intro H. unfold dfasyn in H.
  destruct (read_description ds) as [src| | | |] eqn:E; try discriminate. cbn [obind] in H.
  destruct (raw_dfa src) as [d| | | |] eqn:Er; try discriminate. cbn [obind] in H.
  destruct (compress_dfa d) as [out| | | |] eqn:Ec; try discriminate. cbn [obind] in H. injection H as <-.
  exists src. split; [reflexivity|].
  destruct (read_description_wf ds src E) as [Hwf Hst].
  destruct (raw_dfa_ok src d Hwf Hst Er) as (Hne & Hlen & Hcl & Hwalk).
  destruct (compress_dfa_ok d _ Hne Hlen Hcl) as (out' & Ec' & One & Ole & Olen & Ocl & Osame & _).
  rewrite Ec in Ec'. injection Ec' as <-.
  assert (EL : List.length (t_exit (print_tables src out)) = List.length out) by (apply map_length).
  rewrite EL. intros S1 S2 S3 w.
  assert (Hex : run_tables (print_tables src out) (Some 0) w = Ok (walk (map d_map out) (Some 0) w)).
  { apply run_tables_walk; try assumption. destruct out; [congruence|]. cbn [List.length]. lia. }
  exists (walk (map d_map out) (Some 0) w). split; [exact Hex|].
  unfold answers. specialize (Hwalk w). specialize (Osame w). unfold after, observe in Osame.
  destruct (walk (map d_map out) (Some 0) w) as [i|] eqn:Eo.
  - assert (Li : exists x, nth_error out (N.to_nat i) = Some x).
    { destruct (nth_error out (N.to_nat i)) eqn:En; [eauto|]. exfalso.
      assert (Hin : forall w i, walk (map d_map out) (Some 0) w = Some i -> i < N.of_nat (List.length out)).
      { clear - Ocl One. induction w as [|t w IH] using rev_ind; intros i H.
        - injection H as <-. destruct out; [congruence|]. cbn [List.length]. lia.
        - rewrite walk_app in H. destruct (walk _ (Some 0) w) as [k|] eqn:Ek; [|discriminate]. cbn [walk] in H.
          unfold entry in H. destruct (nth_error (map d_map out) (N.to_nat k)) as [row|] eqn:E1; [|discriminate].
          destruct (nth_error row (N.to_nat t)) as [[j|]|] eqn:E2; try discriminate. injection H as ->.
          unfold closed_table in Ocl. rewrite Forall_forall in Ocl. specialize (Ocl _ (nth_error_In _ _ E1)).
          rewrite Forall_forall in Ocl. specialize (Ocl _ (nth_error_In _ _ E2)). cbn in Ocl.
          rewrite map_length in Ocl. exact Ocl. }
      apply Hin in Eo. apply nth_error_None in En. lia. }
    destruct Li as [x Ex]. rewrite Ex in Osame.
    destruct (walk (map d_map d) (Some 0) w) as [j|] eqn:Ed; [|discriminate].
    destruct Hwalk as (Hal & y & re & ra & Ey & R1 & R2 & R3 & R4). rewrite Ey in Osame.
    split; [exact Hal|]. exists re, ra. split; [exact R1|]. split; [exact R2|].
    cbn [print_tables t_exit t_attr]. rewrite <- R3, <- R4. split.
    + erewrite map_nth_error by exact Ex. f_equal. f_equal.
      destruct (d_result x), (d_result y); congruence.
    + intros Hu Hre. rewrite Hu. erewrite map_nth_error by exact Ex. f_equal. f_equal.
      destruct re as [r|]; [|congruence]. rewrite R3 in Osame. cbn [option_map] in Osame.
      destruct (d_result x); [congruence|discriminate].
  - destruct (walk (map d_map d) (Some 0) w) as [j|] eqn:Ed; [|exact Hwalk].
    destruct Hwalk as (_ & y & re & ra & Ey & _). rewrite Ey in Osame. discriminate.
Qed.
