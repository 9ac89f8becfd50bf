(* Proofs about handle_zei and handle_indicators. *)
From Coq Require Import String List NArith Bool Arith Lia.
From Verif Require Import Base TokData CmavoData TokModel ErasureSpec ErasureProofs Lex2Spec Lex2Proofs.
Import ListNotations.
Open Scope list_scope.

(* ---------- zei ---------- *)
Lemma join_concat sep l : join sep l = String.concat sep l.
Proof. induction l as [|s l IH]; [reflexivity|]. destruct l; [reflexivity|]. cbn [join String.concat] in *. rewrite IH. reflexivity. Qed.

Lemma join_length sep l : l <> [] ->
  String.length (join sep l) = total_length l + (length l - 1) * String.length sep.
Proof.
  induction l as [|s l IH]; [congruence|]. intros _. destruct l as [|s' l'].
  - cbn. lia.
  - change (join sep (s :: s' :: l')) with (s ++ sep ++ join sep (s' :: l'))%string.
    rewrite !str_app_length, IH by discriminate.
    change (total_length (s :: s' :: l')) with (String.length s + total_length (s' :: l')).
    change (length (s :: s' :: l')) with (S (length (s' :: l'))).
    change (length (s' :: l')) with (S (length l')). lia.
Qed.

Lemma join_buf_ok sep l cap : l <> [] ->
  cap = total_length l + (length l - 1) * String.length sep + 1 ->
  join_buf sep cap l = Ok (String.concat sep l).
Proof.
  intros Hl ->. unfold join_buf. rewrite join_length by assumption. rewrite join_concat.
  rewrite Nat.leb_refl. reflexivity.
Qed.

Lemma strings_of_ok l : Forall showable l -> strings_of l = Ok (map shown l).
Proof.
  induction 1 as [|y l Hy Hl IH]; [reflexivity|]. cbn [strings_of]. unfold build_string_from_node.
  rewrite build_string_ok by (auto; discriminate). cbn [obind]. rewrite IH. reflexivity.
Qed.
Lemma strings_of_inv l ss : strings_of l = Ok ss -> Forall showable l.
Proof.
  revert ss; induction l as [|y l IH]; intros ss H; [constructor|]. cbn [strings_of] in H.
  destruct (build_string_from_node y) as [s| | | |] eqn:Es; try discriminate. cbn [obind] in H.
  destruct (strings_of l) as [ss'| | | |] eqn:El; try discriminate.
  constructor; [|eapply IH; eauto].
  unfold build_string_from_node, build_string_from_nodes in Es. cbn [nodes_len] in Es.
  unfold node_len in Es. unfold showable. destruct (dat y); try exact I; discriminate.
Qed.

Lemma is_zei_iff x : is_zei x = true <-> cmavo_of T_ZEI x.
Proof. apply cmtest_iff. Qed.
Lemma is_zei_false x : is_zei x = false <-> ~ cmavo_of T_ZEI x.
Proof. apply cmtest_false. Qed.

Lemma zei_operands_some z : forall ops r, zei_operands z = Some (ops, r) ->
  exists o ps, z = o :: pairs_flat ps ++ r /\ ops = o :: map snd ps /\
    Forall (fun p => cmavo_of T_ZEI (fst p)) ps /\ head_is (fun y => ~ cmavo_of T_ZEI y) r.
Proof.
  remember (length z) as n eqn:Hn. revert z Hn. induction n as [n IH] using lt_wf_ind.
  intros z Hn ops r H. destruct z as [|y z']; [discriminate|]. cbn [zei_operands] in H.
  destruct z' as [|z1 z''].
  - injection H as <- <-. exists y, []. repeat split; auto.
  - destruct (is_zei z1) eqn:E.
    + destruct (zei_operands z'') as [[ops' r']|] eqn:E2; [|discriminate]. injection H as <- <-.
      destruct (IH (length z'')) with (z := z'') (ops := ops') (r := r')
        as (o & ps & -> & -> & HF & Hh); auto.
      { cbn in Hn. lia. }
      exists y, ((z1, o) :: ps). repeat split; auto. constructor; auto. apply is_zei_iff; auto.
    + injection H as <- <-. exists y, []. repeat split; auto. cbn. apply is_zei_false; auto.
Qed.
Lemma zei_operands_intro ps : forall o r,
  Forall (fun p => cmavo_of T_ZEI (fst p)) ps -> head_is (fun y => ~ cmavo_of T_ZEI y) r ->
  zei_operands (o :: pairs_flat ps ++ r) = Some (o :: map snd ps, r).
Proof.
  induction ps as [|[z o'] ps IH]; intros o r HF Hh.
  - cbn [pairs_flat flat_map app map]. cbn [zei_operands]. destruct r as [|y r]; [reflexivity|].
    cbn in Hh. apply is_zei_false in Hh. rewrite Hh. reflexivity.
  - inversion HF as [|? ? Hz HF']; subst. cbn [fst] in Hz. apply is_zei_iff in Hz.
    change (pairs_flat ((z, o') :: ps)) with (z :: o' :: pairs_flat ps).
    cbn [app zei_operands]. rewrite Hz. cbn [zei_operands] in IH. 
    specialize (IH o' r HF' Hh). rewrite IH. reflexivity.
Qed.

Lemma pairs_flat_length ps : length (pairs_flat ps) = 2 * length ps.
Proof.
  induction ps as [|p ps IH]; [reflexivity|].
  change (pairs_flat (p :: ps)) with (fst p :: snd p :: pairs_flat ps). cbn [length]. lia.
Qed.

Lemma zei_step fuel first x z o ps l pre bad :
  cmavo_of T_ZEI z -> Forall (fun p => cmavo_of T_ZEI (fst p)) ps ->
  Forall showable (x :: o :: map snd ps) -> head_is (fun y => ~ cmavo_of T_ZEI y) l ->
  first = false ->
  zei_loop (S fuel) first (x :: pre) (z :: o :: pairs_flat ps ++ l) bad =
  zei_loop fuel false
    (set_dat (N_ZEI (x :: o :: map snd ps)
                      (String.concat "+" (map shown (x :: o :: map snd ps)))
                      (String.concat " zei " (map shown (x :: o :: map snd ps)))) z :: pre) l bad.
Proof.
  intros Hz HF HS Hh ->. apply is_zei_iff in Hz. cbn [zei_loop]. rewrite Hz.
  rewrite zei_operands_intro by assumption.
  rewrite strings_of_ok by assumption. cbn [obind].
  set (ch := x :: o :: map snd ps) in *.
  assert (Hlen : length (map shown ch) = length ch) by apply map_length.
  rewrite join_buf_ok.
  - cbn [obind]. rewrite join_buf_ok.
    + cbn [obind]. reflexivity.
    + subst ch; discriminate.
    + rewrite Hlen. reflexivity.
  - subst ch; discriminate.
  - rewrite Hlen. cbn [String.length]. lia.
Qed.

Lemma zei_loop_spec l r : zei_spec l r -> forall fuel first pre bad, length l < fuel ->
  zei_loop fuel first pre l bad = Ok (rev pre ++ r, bad).
Proof.
  induction 1 as [|x l r Hx Hh Hsp IH|x z o ps l r Hx Hz HF HS Hh Hsp IH]; intros fuel first pre bad Hf.
  - destruct fuel; [lia|]. cbn. rewrite app_nil_r. reflexivity.
  - destruct fuel; [lia|]. cbn [zei_loop]. apply is_zei_false in Hx. rewrite Hx.
    cbn [length] in Hf. rewrite IH by lia. cbn [rev]. rewrite <- app_assoc. reflexivity.
  - destruct fuel; [lia|]. cbn [zei_loop]. apply is_zei_false in Hx. rewrite Hx.
    cbn [length] in Hf. rewrite app_length, pairs_flat_length in Hf.
    destruct fuel; [lia|]. rewrite zei_step by auto. rewrite IH by lia.
    cbn [rev]. rewrite <- app_assoc. reflexivity.
Qed.

Lemma zei_bad_stays fuel : forall first pre l r b, zei_loop fuel first pre l true = Ok (r, b) -> b = true.
Proof.
  induction fuel as [|f IH]; intros first pre l r b H; [discriminate|]. cbn [zei_loop] in H.
  destruct l as [|x nt]; [congruence|].
  destruct (is_zei x); [|eauto]. destruct first; [eauto|].
  destruct (zei_operands nt) as [[ops rgt]|]; [|eauto].
  destruct pre as [|p pre]; [discriminate|].
  destruct (strings_of _) as [comps| | | |]; try discriminate; cbn [obind] in H.
  destruct (join_buf "+" _ _); try discriminate; cbn [obind] in H.
  destruct (join_buf " zei " _ _); try discriminate; cbn [obind] in H. eauto.
Qed.

Lemma zei_loop_conv fuel : forall pre l r,
  zei_loop fuel false pre l false = Ok (r, false) ->
  head_is (fun y => ~ cmavo_of T_ZEI y) l -> exists r', zei_spec l r'.
Proof.
  induction fuel as [fuel IH] using lt_wf_ind. intros pre l r H Hh.
  destruct fuel as [|f]; [discriminate|]. cbn [zei_loop] in H.
  destruct l as [|x nt]; [eexists; constructor|]. cbn in Hh.
  assert (Hx := Hh). apply is_zei_false in Hx. rewrite Hx in H.
  destruct nt as [|z nt].
  { eexists. apply zes_word; auto. cbn; auto. constructor. }
  destruct (is_zei z) eqn:Hz.
  - destruct f as [|f]; [discriminate|]. cbn [zei_loop] in H. rewrite Hz in H.
    destruct (zei_operands nt) as [[ops rgt]|] eqn:Eo.
    + destruct (zei_operands_some _ _ _ Eo) as (o & ps & -> & -> & HF & Hhr).
      destruct (strings_of (x :: o :: map snd ps)) as [comps| | | |] eqn:Es; try discriminate; cbn [obind] in H.
      destruct (join_buf "+" _ _); try discriminate; cbn [obind] in H.
      destruct (join_buf " zei " _ _); try discriminate; cbn [obind] in H.
      apply strings_of_inv in Es. apply is_zei_iff in Hz.
      destruct (IH f) with (pre := set_dat (N_ZEI (x :: o :: map snd ps) a a0) z :: pre) (l := rgt) (r := r)
        as [r' Hr']; auto.
      eexists. apply zes_chain; eauto.
    + apply zei_bad_stays in H. discriminate.
  - destruct (IH f) with (pre := x :: pre) (l := z :: nt) (r := r) as [r' Hr']; auto.
    { cbn. apply is_zei_false; auto. }
    eexists. apply zes_word; eauto. cbn. apply is_zei_false; auto.
Qed.

Lemma handle_zei_ok l r : handle_zei l = Ok (r, false) <-> zei_spec l r.
Proof.
  unfold handle_zei. split; intro H.
  - assert (exists r', zei_spec l r') as [r' Hr'].
    { destruct l as [|x l]; [eexists; constructor|].
      destruct (is_zei x) eqn:Hx.
      - cbn [zei_loop] in H. rewrite Hx in H. apply zei_bad_stays in H. discriminate.
      - apply (zei_loop_conv (S (length (x :: l))) [] (x :: l) r).
        + cbn [zei_loop] in H |- *. rewrite Hx in H |- *. exact H.
        + cbn. apply is_zei_false; auto. }
    rewrite (zei_loop_spec _ _ Hr') in H by lia. cbn in H. congruence.
  - rewrite (zei_loop_spec _ _ H) by lia. reflexivity.
Qed.

(* the words are all still there, in the same order *)
Fixpoint sepcat (l : list node) : list string :=
  match l with
  | [] => []
  | c :: l' => match l' with [] => spell c | _ => spell c ++ "zei"%string :: sepcat l' end
  end.
Lemma spell_zei ch p w ln cl : spell (Node (N_ZEI ch p w) ln cl None false None []) = sepcat ch.
Proof.
  cbn [spell app nai_words cai_words]. rewrite app_nil_r.
  induction ch as [|c ch IH]; [reflexivity|]. destruct ch as [|c' ch]; [reflexivity|].
  cbn [sepcat] in *. rewrite IH. reflexivity.
Qed.
Lemma sepcat_pairs x (ps : list (node * node)) : sepcat (x :: map snd ps) =
  spell x ++ flat_map (fun p => "zei"%string :: spell (snd p)) ps.
Proof.
  revert x. induction ps as [|p ps IH]; intro x.
  - cbn. rewrite app_nil_r. reflexivity.
  - cbn [map flat_map]. change (sepcat (x :: snd p :: map snd ps)) with
      (spell x ++ "zei"%string :: sepcat (snd p :: map snd ps)).
    rewrite IH. cbn [app]. reflexivity.
Qed.
Definition zei_ready (n : node) : Prop := cmavo_of T_ZEI n -> bare n /\ wf_cmavo n.
Lemma spell_bare_cmavo n s c f : dat n = N_CMAVO s c f -> bare n -> spell n = [cmavo_word c].
Proof.
  intros Hd Hb. rewrite (spell_dat_only n Hb), Hd. reflexivity.
Qed.
Lemma spell_zei_word z : cmavo_of T_ZEI z -> zei_ready z -> spell z = ["zei"%string].
Proof.
  intros Hz Hr. destruct (Hr Hz) as [Hb Hw]. destruct Hz as (c & f & Hd).
  rewrite (spell_bare_cmavo _ _ _ _ Hd Hb). unfold wf_cmavo in Hw. rewrite Hd in Hw.
  apply zei_sel in Hw. rewrite Hw. reflexivity.
Qed.
Lemma spell_all_app a b : spell_all (a ++ b) = spell_all a ++ spell_all b.
Proof. apply flat_map_app. Qed.
Lemma zei_spec_spell l r : zei_spec l r -> Forall zei_ready l -> spell_all r = spell_all l.
Proof.
  induction 1 as [|x l r Hx Hh Hsp IH|x z o ps l r Hx Hz HF HS Hh Hsp IH]; intro HR; [reflexivity| |].
  - inversion HR; subst. cbn. unfold spell_all in IH. rewrite IH by assumption. reflexivity.
  - inversion HR as [|? ? Rx HR1]; subst. inversion HR1 as [|? ? Rz HR2]; subst.
    inversion HR2 as [|? ? Ro HR3]; subst. apply Forall_app in HR3. destruct HR3 as [HRp HRl].
    destruct (Rz Hz) as [Hb _]. 
    change (spell_all (?n :: r)) with (spell n ++ spell_all r).
    cbn [app spell_all flat_map]. fold (spell_all (pairs_flat ps ++ l)). rewrite spell_all_app.
    rewrite IH by assumption.
    assert (Hp : flat_map (fun p => "zei"%string :: spell (snd p)) ps = spell_all (pairs_flat ps)).
    { clear - HRp HF. induction ps as [|[z1 o1] ps IHp]; [reflexivity|].
      change (pairs_flat ((z1, o1) :: ps)) with (z1 :: o1 :: pairs_flat ps) in *.
      inversion HRp as [|? ? R1 HRp1]; subst. inversion HRp1 as [|? ? R2 HRp2]; subst.
      inversion HF; subst. cbn [flat_map snd spell_all].
      fold (spell_all (pairs_flat ps)). rewrite IHp by assumption.
      rewrite (spell_zei_word z1) by assumption. reflexivity. }
    replace (spell (set_dat _ z)) with (sepcat (x :: map snd ((z, o) :: ps))).
    + rewrite sepcat_pairs. cbn [flat_map snd]. rewrite Hp. rewrite (spell_zei_word z) by assumption.
      rewrite <- !app_assoc. cbn [app]. reflexivity.
    + destruct z as [dz lz cz bz gz kz uz]. destruct Hb as (B1 & B2 & B3 & B4). cbn in B1, B2, B3, B4. subst.
      cbn [set_dat]. rewrite spell_zei. reflexivity.
Qed.

(* ---------- pairing off nai and intensity words ---------- *)
Lemma is_indicator_iff x : is_indicator_cmavo x = true <-> indicator x.
Proof.
  unfold indicator, is_indicator_cmavo. rewrite <- !cmtest_iff. unfold cmtest.
  destruct (dat x); try (split; [discriminate|intuition discriminate]).
  rewrite !orb_true_iff. tauto.
Qed.
Lemma is_indicator_false x : is_indicator_cmavo x = false <-> ~ indicator x.
Proof. rewrite <- is_indicator_iff. destruct (is_indicator_cmavo x); intuition congruence. Qed.

Definition cai_words5 : list string := ["cai"; "sai"; "ru'e"; "cu'i"; "pei"]%string.
Lemma cai_sel code : cmavo_selmao code = Some T_CAI -> In (cmavo_word code) cai_words5.
Proof.
  unfold cmavo_selmao, cmavo_word, cmavo_cell.
  destruct (find _ cmavo_cells) as [[[i w'] s']|] eqn:E; [|discriminate].
  apply find_some in E. destruct E as [E _]. intros [= ->].
  assert (H : forallb (fun c => match c with (_, w, s) =>
     implb (tok_eqb s T_CAI) (existsb (String.eqb w) cai_words5) end) cmavo_cells = true)
    by (vm_compute; reflexivity).
  rewrite forallb_forall in H. specialize (H _ E). cbn beta iota in H. rewrite tok_eqb_refl in H.
  cbn [implb] in H. apply existsb_exists in H. destruct H as (w & Hw & He).
  apply String.eqb_eq in He. subst. assumption.
Qed.
Lemma cai_of_word z : cmavo_of T_CAI z -> wf_cmavo z -> bare z ->
  exists k, cai_of z = Some k /\ spell z = cai_words (Some k) /\
    (k = CC_CUhI <-> is_word "cu'i" z) /\
    (k <> CC_CUhI -> cai_words (Some (cai_nai k)) = cai_words (Some k) ++ ["nai"%string]).
Proof.
  intros (c & f & Hd) Hw Hb. unfold wf_cmavo in Hw. rewrite Hd in Hw. apply cai_sel in Hw.
  rewrite (spell_bare_cmavo _ _ _ _ Hd Hb). unfold cai_of. rewrite Hd.
  assert (Hi : is_word "cu'i" z <-> cmavo_word c = "cu'i"%string).
  { unfold is_word. rewrite Hd. split; [intros (s & c' & f' & [= <- <- <-] & H); exact H|eauto 10]. }
  setoid_rewrite Hi. unfold cai_words5 in Hw. cbn [In] in Hw.
  destruct Hw as [Hw|[Hw|[Hw|[Hw|[Hw|[]]]]]]; rewrite <- Hw; cbn; eexists; repeat split; try discriminate; try reflexivity; congruence.
Qed.

Lemma dat_set_neg g n : dat (set_neg g n) = dat n. Proof. destruct n; reflexivity. Qed.
Lemma dat_set_cai k n : dat (set_cai k n) = dat n. Proof. destruct n; reflexivity. Qed.
Lemma spell_sfx x g k : neg x = false -> cai x = None -> ui x = [] ->
  spell (set_cai k (set_neg g x)) = spell x ++ nai_words g ++ cai_words k.
Proof.
  destruct x as [d l c b n' k' u]; cbn [neg cai ui]; intros -> -> ->.
  cbn [set_cai set_neg spell nai_words cai_words app]. rewrite !app_nil_r, <- !app_assoc. reflexivity.
Qed.
Lemma set_neg_id x : neg x = false -> set_neg false x = x.
Proof. destruct x; cbn; intros ->; reflexivity. Qed.
Lemma set_cai_id x : cai x = None -> set_cai None x = x.
Proof. destruct x; cbn; intros ->; reflexivity. Qed.


Ltac kcase := let H1 := fresh in let H2 := fresh in split;
  [intro H1; injection H1 as H1; subst; eexists; split; reflexivity
  |intros (? & H1 & H2); injection H1 as H1; subst; reflexivity].
Lemma cai_of_intensity c w : cmavo_of T_CAI c -> is_word w c ->
  forall b k, intensity w b = Some k <->
    exists k0, cai_of c = Some k0 /\ k = (if b then cai_nai k0 else k0).
Proof.
  intros _ (s & code & f & Hd & Hw) b k. unfold cai_of. rewrite Hd, Hw. unfold intensity.
  destruct (String.eqb w "cai") eqn:E1; [destruct b; cbn; kcase|].
  destruct (String.eqb w "sai") eqn:E2; [destruct b; cbn; kcase|].
  destruct (String.eqb w "ru'e") eqn:E3; [destruct b; cbn; kcase|].
  destruct (String.eqb w "pei") eqn:E4.
  { apply String.eqb_eq in E4. rewrite E4. destruct b; cbn; kcase. }
  destruct (String.eqb w "cu'i") eqn:E5; [destruct b; cbn; kcase|].
  split; [discriminate|intros (k0 & H & _); discriminate].
Qed.
Lemma cmavo_is_word t c : cmavo_of t c -> exists w, is_word w c.
Proof. intros (code & f & Hd). exists (cmavo_word code). unfold is_word. eauto. Qed.

Lemma cmavo_of_fun a b x : cmavo_of a x -> cmavo_of b x -> a = b.
Proof. intros (c & f & H) (c' & f' & H'). congruence. Qed.

Lemma cmtest_t x t : cmavo_of t x -> cmtest x t = true. Proof. apply cmtest_iff. Qed.
Lemma cmtest_f x t : ~ cmavo_of t x -> cmtest x t = false. Proof. apply cmtest_false. Qed.
Lemma cmtest_other a b x : cmavo_of a x -> a <> b -> cmtest x b = false.
Proof. intros H Hab. apply cmtest_false. intro H'. apply Hab. eapply cmavo_of_fun; eauto. Qed.

Lemma pair_spec_loop l r : pair_spec l r -> forall fuel, length l < fuel -> pair_off fuel l = Ok r.
Proof.
  induction 1 as [|x l r Hx Hsp IH|x on l r Hx Hon Hh1 Hh2 Hsp IH|x on c w k om l r Hx Hon Hc Hw Hk Hom Hh Hsp IH];
    intros fuel Hf; destruct fuel as [|fuel]; try (cbn in Hf; lia); cbn [pair_off].
  - reflexivity.
  - replace (is_indicator_cmavo x) with false by (symmetry; apply is_indicator_false; auto).
    cbn [length] in Hf. rewrite IH by lia. reflexivity.
  - replace (is_indicator_cmavo x) with true by (symmetry; apply is_indicator_iff; auto).
    destruct on as [n|]; cbn [opt_list app present].
    + inversion Hon; subst. rewrite cmtest_t by assumption. cbn [opt_list app length] in Hf.
      destruct l as [|z l]; [rewrite IH by (cbn; lia); reflexivity|].
      cbn [head_is] in Hh2. rewrite cmtest_f by assumption. rewrite IH by lia. reflexivity.
    + cbn [opt_list app length] in Hf. specialize (Hh1 eq_refl).
      destruct l as [|z l]; [rewrite IH by (cbn; lia); reflexivity|].
      cbn [head_is] in Hh1, Hh2. rewrite !cmtest_f by assumption. rewrite IH by lia. reflexivity.
  - replace (is_indicator_cmavo x) with true by (symmetry; apply is_indicator_iff; auto).
    apply (cai_of_intensity c w Hc Hw) in Hk. destruct Hk as (k0 & Hk0 & ->).
    cbn [length] in Hf. rewrite app_length in Hf. cbn [length] in Hf. rewrite app_length in Hf.
    assert (Hcore : forall x1,
      match (opt_list om ++ l) with
      | w0 :: v => if cmtest w0 T_NAI then omap (cons (set_cai (Some (cai_nai k0)) x1)) (pair_off fuel v)
                   else omap (cons (set_cai (Some k0) x1)) (pair_off fuel (opt_list om ++ l))
      | [] => omap (cons (set_cai (Some k0) x1)) (pair_off fuel (opt_list om ++ l))
      end = Ok (set_cai (Some (if present om then cai_nai k0 else k0)) x1 :: r)).
    { intro x1. destruct om as [m|]; cbn [opt_list app present].
      - inversion Hom; subst. rewrite cmtest_t by assumption. rewrite IH by lia. reflexivity.
      - specialize (Hh eq_refl). destruct l as [|w0 l]; [rewrite IH by (cbn; lia); reflexivity|].
        cbn [head_is] in Hh. rewrite cmtest_f by assumption. rewrite IH by lia. reflexivity. }
    destruct on as [n|]; cbn [opt_list app present].
    + inversion Hon; subst. rewrite cmtest_t by assumption.
      rewrite (cmtest_t c) by assumption. rewrite Hk0. rewrite <- Hcore.
      destruct (opt_list om ++ l); reflexivity.
    + rewrite (cmtest_other T_CAI T_NAI c) by (auto; discriminate).
      rewrite (cmtest_t c) by assumption. rewrite Hk0. rewrite <- Hcore.
      destruct (opt_list om ++ l); reflexivity.
Qed.

Definition wf_cai (n : node) : Prop := cmavo_of T_CAI n -> cai_of n <> None.
Lemma pair_spec_total l : Forall wf_cai l -> exists r, pair_spec l r.
Proof.
  remember (length l) as n eqn:Hn. revert l Hn. induction n as [n IH] using lt_wf_ind. intros l Hn HW.
  assert (IH' : forall l', length l' < n -> Forall wf_cai l' -> exists r, pair_spec l' r)
    by (intros l' Hl' HW'; eapply IH; eauto). clear IH. subst n.
  destruct l as [|x l]; [eexists; constructor|]. inversion HW as [|? ? Wx HWl]; subst.
  destruct (is_indicator_cmavo x) eqn:Hx.
  2:{ apply is_indicator_false in Hx. destruct (IH' l) as [r Hr]; auto. eexists. apply ps_word; eauto. }
  apply is_indicator_iff in Hx.
  assert (Hon : exists on l1, l = opt_list on ++ l1 /\ Forall (cmavo_of T_NAI) (opt_list on) /\
     (on = None -> head_is (fun y => ~ cmavo_of T_NAI y) l1)).
  { destruct l as [|y l]; [exists None, []; repeat split; auto; cbn; auto|].
    destruct (cmtest y T_NAI) eqn:E.
    - apply cmtest_iff in E. exists (Some y), l. repeat split; auto. cbn; auto. discriminate.
    - apply cmtest_false in E. exists None, (y :: l). repeat split; auto. cbn; auto. }
  destruct Hon as (on & l1 & -> & Hon & Hh1).
  apply Forall_app in HWl. destruct HWl as [_ HW1].
  cbn [length] in IH'. rewrite app_length in IH'.
  destruct l1 as [|c l2].
  { destruct (IH' []) as [r Hr]; auto; [cbn; lia|]. eexists. apply ps_plain; eauto. cbn; auto. }
  destruct (cmtest c T_CAI) eqn:Ec.
  2:{ apply cmtest_false in Ec. destruct (IH' (c :: l2)) as [r Hr]; auto; [lia|]. eexists. apply ps_plain; eauto. }
  apply cmtest_iff in Ec. inversion HW1 as [|? ? Wc HW2]; subst.
  assert (Hom : exists om l3, l2 = opt_list om ++ l3 /\ Forall (cmavo_of T_NAI) (opt_list om) /\
     (om = None -> head_is (fun y => ~ cmavo_of T_NAI y) l3)).
  { destruct l2 as [|y l]; [exists None, []; repeat split; auto; cbn; auto|].
    destruct (cmtest y T_NAI) eqn:E.
    - apply cmtest_iff in E. exists (Some y), l. repeat split; auto. cbn; auto. discriminate.
    - apply cmtest_false in E. exists None, (y :: l). repeat split; auto. cbn; auto. }
  destruct Hom as (om & l3 & -> & Hom & Hh3).
  apply Forall_app in HW2. destruct HW2 as [_ HW3].
  cbn [length] in IH'. rewrite app_length in IH'.
  destruct (IH' l3) as [r Hr]; auto; [lia|].
  destruct (cmavo_is_word _ _ Ec) as [w Hw].
  destruct (cai_of c) as [k0|] eqn:Ek; [|exfalso; apply (Wc Ec); auto].
  destruct (proj2 (cai_of_intensity c w Ec Hw (present om) (if present om then cai_nai k0 else k0)))
    as []; eauto.
  eexists. eapply ps_cai; eauto. apply (cai_of_intensity c w Ec Hw). eauto.
Qed.
Lemma wf_cmavo_cai n : wf_cmavo n -> wf_cai n.
Proof.
  intros Hw (c & f & Hd). unfold wf_cmavo in Hw. rewrite Hd in Hw. apply cai_sel in Hw.
  unfold cai_of. rewrite Hd. unfold cai_words5 in Hw. cbn [In] in Hw.
  destruct Hw as [Hw|[Hw|[Hw|[Hw|[Hw|[]]]]]]; rewrite <- Hw; cbn; discriminate.
Qed.
Lemma pair_off_ok l r : Forall wf_cmavo l ->
  (pair_off_indicator_suffixes l = Ok r <-> pair_spec l r).
Proof.
  intro HW. unfold pair_off_indicator_suffixes. split; intro H.
  - destruct (pair_spec_total l) as [r' Hr'].
    { eapply Forall_impl; [|exact HW]. apply wf_cmavo_cai. }
    rewrite (pair_spec_loop _ _ Hr') in H by lia. congruence.
  - apply pair_spec_loop; auto.
Qed.

(* no word lost in pairing *)
Lemma spell_nai n : cmavo_of T_NAI n -> suffix_ready n -> wf_cmavo n -> spell n = ["nai"%string].
Proof.
  intros Hn (Hb & Hg & Hk & Hu) Hw. assert (Hb' : bare n) by (unfold bare; auto).
  destruct Hn as (c & f & Hd). rewrite (spell_bare_cmavo _ _ _ _ Hd Hb').
  unfold wf_cmavo in Hw. rewrite Hd in Hw. apply nai_sel in Hw. rewrite Hw. reflexivity.
Qed.
Lemma spell_set_neg x : suffix_ready x -> spell (set_neg true x) = spell x ++ ["nai"%string].
Proof.
  intros (_ & Hg & Hk & Hu). rewrite <- (set_cai_id (set_neg true x)) by (destruct x; exact Hk).
  rewrite spell_sfx by assumption. cbn. reflexivity.
Qed.
Lemma spell_set_cai k x (g : bool) : suffix_ready x ->
  spell (set_cai (Some k) (if g then set_neg true x else x)) = spell x ++ nai_words g ++ cai_words (Some k).
Proof.
  intros (_ & Hg & Hk & Hu). destruct g.
  - rewrite spell_sfx by assumption. reflexivity.
  - rewrite <- (set_neg_id x) at 1 by assumption. rewrite spell_sfx by assumption. reflexivity.
Qed.
Lemma no_cuhi_app a b : no_cuhi_nai (a ++ b) -> no_cuhi_nai b.
Proof. induction a; cbn; tauto. Qed.
Lemma pair_spec_spell l r : pair_spec l r ->
  Forall wf_cmavo l -> Forall suffix_ready l -> no_cuhi_nai l -> spell_all r = spell_all l.
Proof.
  induction 1 as [|x l r Hx Hsp IH|x on l r Hx Hon Hh1 Hh2 Hsp IH|x on c w k om l r Hx Hon Hc Hw Hk Hom Hh Hsp IH];
    intros HW HS HN; [reflexivity| | |].
  - inversion HW; inversion HS; subst. destruct HN as [_ HN]. cbn [spell_all flat_map].
    unfold spell_all in IH. rewrite IH by assumption. reflexivity.
  - inversion HW as [|? ? Wx HWl]; inversion HS as [|? ? Sx HSl]; subst.
    apply Forall_app in HWl; destruct HWl as [HWo HWl]. apply Forall_app in HSl; destruct HSl as [HSo HSl].
    destruct HN as [_ HN]. apply no_cuhi_app in HN.
    cbn [spell_all flat_map]. fold (spell_all r). fold (spell_all (opt_list on ++ l)).
    rewrite spell_all_app, IH by assumption.
    destruct on as [n|]; cbn [present opt_list spell_all flat_map app].
    + inversion HWo; inversion HSo; inversion Hon; subst. rewrite spell_set_neg by assumption.
      rewrite (spell_nai n) by assumption. rewrite <- app_assoc. reflexivity.
    + reflexivity.
  - inversion HW as [|? ? Wx HWl]; inversion HS as [|? ? Sx HSl]; subst.
    apply Forall_app in HWl; destruct HWl as [HWo HWl]. apply Forall_app in HSl; destruct HSl as [HSo HSl].
    inversion HWl as [|? ? Wc HWm]; inversion HSl as [|? ? Sc HSm]; subst.
    apply Forall_app in HWm; destruct HWm as [HWm HWl']. apply Forall_app in HSm; destruct HSm as [HSm HSl'].
    destruct HN as [_ HN]. apply no_cuhi_app in HN. cbn [no_cuhi_nai] in HN. destruct HN as [HNc HN].
    apply no_cuhi_app in HN.
    cbn [spell_all flat_map]. fold (spell_all r). fold (spell_all (opt_list on ++ c :: opt_list om ++ l)).
    rewrite spell_all_app. cbn [spell_all flat_map]. fold (spell_all (opt_list om ++ l)). rewrite spell_all_app.
    rewrite IH by assumption. rewrite spell_set_cai by assumption.
    assert (Ho : spell_all (opt_list on) = nai_words (present on)).
    { destruct on as [n|]; [|reflexivity]. inversion HWo; inversion HSo; inversion Hon; subst.
      cbn. rewrite (spell_nai n) by assumption. reflexivity. }
    fold (spell_all (opt_list on)). rewrite Ho.
    assert (Hbc : bare c). { destruct Sc as (B & ? & ? & ?). unfold bare. auto. }
    destruct (cai_of_word c Hc Wc Hbc) as (k0 & Hk0 & Hsc & Hcu & Hnai).
    apply (cai_of_intensity c w Hc Hw) in Hk. destruct Hk as (k1 & Hk1 & ->).
    assert (k1 = k0) by congruence. subst k1.
    assert (Hom' : spell c ++ spell_all (opt_list om) =
             cai_words (Some (if present om then cai_nai k0 else k0))).
    { destruct om as [m|]; cbn [present opt_list].
      - inversion HWm; inversion HSm; inversion Hom; subst.
        cbn [spell_all flat_map app]. rewrite (spell_nai m), Hsc by assumption. cbn [app].
        rewrite Hnai; [reflexivity|]. intro HC. apply Hcu in HC. apply HNc in HC. cbn in HC. contradiction.
      - cbn [spell_all flat_map app]. rewrite app_nil_r. assumption. }
    rewrite <- Hom'. rewrite <- !app_assoc. reflexivity.
Qed.

(* after pairing: which nodes are indicators is unchanged, and nothing is attached yet *)
Lemma indicator_dat x y : dat x = dat y -> (indicator x <-> indicator y).
Proof. intro H. unfold indicator, cmavo_of. rewrite H. tauto. Qed.
Lemma ui_sfx (g : bool) k x : ui (set_cai k (if g then set_neg true x else x)) = ui x.
Proof. destruct g, x; reflexivity. Qed.
Lemma pair_spec_ui l r : pair_spec l r -> Forall (fun n => ui n = []) l -> Forall (fun n => ui n = []) r.
Proof.
  induction 1 as [|x l r Hx Hsp IH|x on l r Hx Hon Hh1 Hh2 Hsp IH|x on c w k om l r Hx Hon Hc Hw Hk Hom Hh Hsp IH];
    intros HU; [constructor| | |]; inversion HU as [|? ? Ux HUl]; subst.
  - constructor; auto.
  - apply Forall_app in HUl. destruct HUl as [_ HUl]. constructor; auto. destruct (present on), x; exact Ux.
  - apply Forall_app in HUl. destruct HUl as [_ HUl]. inversion HUl as [|? ? _ HUm]; subst.
    apply Forall_app in HUm. destruct HUm as [_ HUm]. constructor; auto. rewrite ui_sfx. exact Ux.
Qed.

(* ---------- attaching ---------- *)
Lemma span_indicators_spec l a b : span_indicators l = (a, b) ->
  l = a ++ b /\ Forall indicator a /\ head_is (fun y => ~ indicator y) b.
Proof.
  revert a b. induction l as [|x l IH]; intros a b H; cbn in H.
  - injection H as <- <-. repeat split; auto.
  - destruct (is_indicator_cmavo x) eqn:E.
    + destruct (span_indicators l) as [a' b']. injection H as <- <-.
      destruct (IH a' b' eq_refl) as (-> & Ha & Hb). repeat split; auto.
      constructor; auto. apply is_indicator_iff; auto.
    + injection H as <- <-. repeat split; auto. cbn. apply is_indicator_false; auto.
Qed.
Lemma span_indicators_app a b : Forall indicator a -> head_is (fun y => ~ indicator y) b ->
  span_indicators (a ++ b) = (a, b).
Proof.
  induction 1 as [|x a Hx Ha IH]; intro Hb.
  - cbn [app]. destruct b as [|y b]; [reflexivity|]. cbn in Hb |- *.
    apply is_indicator_false in Hb. rewrite Hb. reflexivity.
  - cbn [app span_indicators]. apply is_indicator_iff in Hx. rewrite Hx, IH by assumption. reflexivity.
Qed.
Lemma is_fuhe_indicator x : is_fuhe x = true -> indicator x.
Proof. unfold is_fuhe. rewrite cmtest_iff. unfold indicator. tauto. Qed.

Definition groups_ok (g : list (node * list node)) : Prop :=
  Forall (fun p => ~ indicator (fst p) /\ Forall indicator (snd p)) g.
Lemma group_flat_head g : groups_ok g -> head_is (fun y => ~ indicator y) (group_flat g).
Proof. destruct g as [|p g]; [cbn; auto|]. inversion 1 as [|? ? [Hp _] _]; subst. exact Hp. Qed.
Lemma ind_loop_groups g : groups_ok g -> forall fuel pre, length (group_flat g) < fuel ->
  ind_loop fuel XX_OTHER pre (group_flat g) = Ok (rev pre ++ map attach g).
Proof.
  induction 1 as [|[x is] g [Hx His] Hg IH]; intros fuel pre Hf; destruct fuel as [|fuel]; try lia.
  - cbn. rewrite app_nil_r. reflexivity.
  - cbn [fst snd] in *. change (group_flat ((x, is) :: g)) with (x :: is ++ group_flat g) in *.
    cbn [ind_loop]. apply is_indicator_false in Hx. rewrite Hx. cbn [length] in Hf. rewrite app_length in Hf.
    destruct is as [|i is].
    + cbn [app]. rewrite IH by (cbn [length] in Hf; lia). cbn [rev map]. rewrite <- app_assoc. reflexivity.
    + destruct fuel as [|fuel]; [cbn [length] in Hf; lia|].
      cbn [app ind_loop]. inversion His as [|? ? Hi His']; subst.
      assert (Hi' := Hi). apply is_indicator_iff in Hi'. rewrite Hi'.
      change (i :: is ++ group_flat g) with ((i :: is) ++ group_flat g).
      rewrite span_indicators_app by (auto using group_flat_head).
      rewrite IH by (cbn [length] in Hf; lia). cbn [rev map]. rewrite <- app_assoc. reflexivity.
Qed.
Lemma ind_loop_init g : groups_ok g -> forall init fuel st pre,
  Forall indicator init -> st <> XX_OTHER -> length (init ++ group_flat g) < fuel ->
  ind_loop fuel st pre (init ++ group_flat g) = Ok (rev pre ++ init ++ map attach g).
Proof.
  intros Hg init. induction init as [|x init IH]; intros fuel st pre HF Hst Hf.
  - cbn [app]. destruct g as [|[x is] g].
    + destruct fuel; [lia|]. cbn; rewrite app_nil_r; reflexivity.
    + inversion Hg as [|? ? [Hx His] Hg']; subst. cbn [fst snd] in *.
      destruct fuel as [|fuel]; [lia|].
      assert (Hxi := Hx). apply is_indicator_false in Hxi.
      assert (Hxf : is_fuhe x = false).
      { destruct (is_fuhe x) eqn:E; [|reflexivity]. apply is_fuhe_indicator in E. contradiction. }
      assert (Hstep : ind_loop (S fuel) st pre (group_flat ((x, is) :: g)) =
                      ind_loop (S fuel) XX_OTHER pre (group_flat ((x, is) :: g))).
      { change (group_flat ((x, is) :: g)) with (x :: is ++ group_flat g).
        destruct st; cbn [ind_loop]; rewrite ?Hxi, ?Hxf; reflexivity. }
      rewrite Hstep. apply ind_loop_groups; auto.
  - destruct fuel as [|fuel]; [cbn [length app] in Hf; lia|].
    inversion HF as [|? ? Hx HF']; subst. assert (Hxi := Hx). apply is_indicator_iff in Hxi.
    assert (exists st', st' <> XX_OTHER /\ ind_loop (S fuel) st pre ((x :: init) ++ group_flat g) =
            ind_loop fuel st' (x :: pre) (init ++ group_flat g)) as (st' & Hst' & ->).
    { cbn [app ind_loop]. destruct st; try congruence; rewrite ?Hxi;
        [destruct (is_fuhe x)| |]; eexists; (split; [|reflexivity]); discriminate. }
    cbn [app length] in Hf. rewrite IH by (auto; lia). cbn [rev]. rewrite <- app_assoc. reflexivity.
Qed.
Lemma grouping l : exists init g, l = init ++ group_flat g /\ Forall indicator init /\ groups_ok g.
Proof.
  induction l as [|x l (init & g & -> & HF & Hg)].
  - exists [], []. repeat split; constructor.
  - destruct (is_indicator_cmavo x) eqn:E.
    + exists (x :: init), g. repeat split; auto. constructor; auto. apply is_indicator_iff; auto.
    + exists [], ((x, init) :: g). repeat split; auto. constructor; auto. cbn. split; auto.
      apply is_indicator_false; auto.
Qed.
Lemma spell_set_ui x is : ui x = [] -> spell (set_ui is x) = spell x ++ spell_all is.
Proof.
  destruct x as [d l c b n k u]; cbn [ui]; intros ->. cbn [set_ui spell].
  rewrite app_nil_r, <- !app_assoc. do 4 f_equal.
Qed.
Lemma spell_attach p : ui (fst p) = [] -> spell (attach p) = spell_all (fst p :: snd p).
Proof.
  destruct p as [x is]; cbn [fst snd]. intro H. unfold attach; cbn [fst snd].
  destruct is as [|i is]; [cbn; rewrite app_nil_r; reflexivity|].
  rewrite spell_set_ui by assumption. reflexivity.
Qed.
Lemma spell_groups g : Forall (fun n => ui n = []) (group_flat g) ->
  spell_all (map attach g) = spell_all (group_flat g).
Proof.
  induction g as [|p g IH]; intro HF; [reflexivity|].
  change (group_flat (p :: g)) with ((fst p :: snd p) ++ group_flat g) in *.
  apply Forall_app in HF. destruct HF as [HFp HFg]. inversion HFp; subst.
  rewrite spell_all_app, <- IH by assumption. cbn [map]. rewrite <- spell_attach by assumption. reflexivity.
Qed.
Lemma handle_indicators_shape l t : Forall wf_cmavo l -> pair_spec l t ->
  exists init g, t = init ++ group_flat g /\ Forall indicator init /\ groups_ok g /\
    handle_indicators l = Ok (init ++ map attach g).
Proof.
  intros HW Ht. destruct (grouping t) as (init & g & -> & HF & Hg).
  exists init, g. repeat split; auto. unfold handle_indicators.
  apply pair_off_ok in Ht; auto. rewrite Ht. cbn [obind].
  rewrite ind_loop_init by (auto; try discriminate; lia). reflexivity.
Qed.
Lemma handle_indicators_total l : Forall wf_cmavo l -> exists r, handle_indicators l = Ok r.
Proof.
  intro HW. destruct (pair_spec_total l) as [t Ht].
  { eapply Forall_impl; [|exact HW]. apply wf_cmavo_cai. }
  destruct (handle_indicators_shape _ _ HW Ht) as (init & g & _ & _ & _ & H). eauto.
Qed.
Lemma handle_indicators_spell l r : Forall wf_cmavo l -> Forall suffix_ready l -> no_cuhi_nai l ->
  handle_indicators l = Ok r -> spell_all r = spell_all l.
Proof.
  intros HW HS HN H. destruct (pair_spec_total l) as [t Ht].
  { eapply Forall_impl; [|exact HW]. apply wf_cmavo_cai. }
  destruct (handle_indicators_shape _ _ HW Ht) as (init & g & -> & HF & Hg & H').
  assert (HU : Forall (fun n => ui n = []) (init ++ group_flat g)).
  { eapply pair_spec_ui; eauto. eapply Forall_impl; [|exact HS]. intros a (_ & _ & _ & Ha). exact Ha. }
  apply Forall_app in HU. destruct HU as [_ HU].
  rewrite H' in H. injection H as <-.
  rewrite spell_all_app, spell_groups by assumption. rewrite <- spell_all_app.
  eapply pair_spec_spell; eauto.
Qed.
