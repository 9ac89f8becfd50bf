From Coq Require Import String List NArith Bool Arith Lia.
From Verif Require Import Base TokData CmavoData TokModel ErasureSpec.
Import ListNotations.
Open Scope list_scope.

(* ---------- tokens ---------- *)
Lemma nth_all_toks t : nth_error all_toks (N.to_nat (tok_code t)) = Some t.
Proof. destruct t; vm_compute; reflexivity. Qed.

Lemma tok_eqb_eq a b : tok_eqb a b = true <-> a = b.
Proof.
  unfold tok_eqb. rewrite N.eqb_eq. split; [|congruence].
  intro H. pose proof (nth_all_toks a) as Ha. pose proof (nth_all_toks b) as Hb.
  rewrite H in Ha. congruence.
Qed.
Lemma tok_eqb_refl a : tok_eqb a a = true.
Proof. apply tok_eqb_eq; reflexivity. Qed.

Lemma cmtest_iff x t : cmtest x t = true <-> cmavo_of t x.
Proof.
  unfold cmtest, cmavo_of. destruct (dat x) eqn:E; split; try discriminate;
    try (intros (c & f & H); discriminate H).
  - intro H. apply tok_eqb_eq in H. subst. eauto.
  - intros (c & f & H). injection H as -> -> ->. apply tok_eqb_refl.
Qed.
Lemma cmtest_false x t : cmtest x t = false <-> ~ cmavo_of t x.
Proof. rewrite <- cmtest_iff. destruct (cmtest x t); intuition congruence. Qed.

(* ---------- si ---------- *)
Lemma si_word_si x stack warns :
  cmtest x T_SI = true ->
  si_word (Some (stack, warns)) x =
  match stack with
  | [] => Some ([x], (line x, col x) :: warns)
  | y :: below => match nibble y with None => None | Some l => Some (l ++ below, warns) end
  end.
Proof.
  intro H. apply cmtest_iff in H. destruct H as (c & f & H). cbn [si_word]. rewrite H. reflexivity.
Qed.
Lemma si_word_other x stack warns :
  cmtest x T_SI = false -> si_word (Some (stack, warns)) x = Some (x :: stack, warns).
Proof.
  unfold cmtest; cbn [si_word]. destruct (dat x) as [| |s c f| | | | | | | |]; try reflexivity.
  intro H. destruct s; try reflexivity. rewrite tok_eqb_refl in H. discriminate.
Qed.
Lemma si_word_none l : fold_left si_word l None = None.
Proof. induction l; cbn; auto. Qed.

Lemma eat_si_spec need z short z' :
  eat_si need z = (short, z') ->
  exists sis, z = sis ++ z' /\ Forall (fun x => cmtest x T_SI = true) sis /\
              need = length sis + short.
Proof.
  revert z. induction need as [|n IH]; cbn [eat_si]; intros z H.
  - injection H as <- <-. exists []. auto.
  - destruct z as [|x z1].
    + injection H as <- <-. exists []. auto.
    + destruct (cmtest x T_SI) eqn:E.
      * destruct (IH _ H) as (sis & -> & Hf & Hl). exists (x :: sis).
        cbn. repeat split; auto; lia.
      * injection H as <- <-. exists []. auto.
Qed.

Lemma set_dat_twice d d' y : set_dat d (set_dat d' y) = set_dat d y.
Proof. destruct y; reflexivity. Qed.
Lemma dat_set_dat d y : dat (set_dat d y) = d.
Proof. destruct y; reflexivity. Qed.

(* eating sis from a broken item *)
Lemma fold_broken sis : forall y below warns k,
  Forall (fun x => cmtest x T_SI = true) sis -> length sis < k ->
  fold_left si_word sis (Some (set_dat (N_BROKEN_ERASURE k) y :: below, warns)) =
  Some (set_dat (N_BROKEN_ERASURE (k - length sis)) y :: below, warns).
Proof.
  induction sis as [|x sis IH]; intros y below warns k HF Hlt; cbn [fold_left length] in *.
  - replace (k - 0) with k by lia. reflexivity.
  - inversion HF; subst. rewrite si_word_si by assumption.
    unfold nibble. rewrite dat_set_dat. cbn [units].
    destruct k as [|[|k]]; try lia.
    rewrite set_dat_twice. cbn [app]. rewrite IH by (auto; lia).
    replace (S (S k) - S (length sis)) with (S k - length sis) by lia. reflexivity.
Qed.
Lemma fold_broken_all sis : forall y below warns,
  Forall (fun x => cmtest x T_SI = true) sis -> 0 < length sis ->
  fold_left si_word sis (Some (set_dat (N_BROKEN_ERASURE (length sis)) y :: below, warns)) =
  Some (below, warns).
Proof.
  intros y below warns HF Hpos.
  destruct (exists_last (l := sis)) as (sis' & x & ->). { intros ->; cbn in Hpos; lia. }
  apply Forall_app in HF. destruct HF as [HF1 HF2]. inversion HF2; subst.
  rewrite fold_left_app, app_length. cbn [length].
  rewrite fold_broken by (auto; lia).
  cbn [fold_left]. rewrite si_word_si by assumption.
  unfold nibble. rewrite dat_set_dat.
  replace (length sis' + 1 - length sis') with 1 by lia. reflexivity.
Qed.

Lemma units_require y : si_require y = units (dat y).
Proof. unfold si_require; destruct (dat y); reflexivity. Qed.

Definition si_out (st : option (list node * list (N * N))) : outcome (list node * list (N * N)) :=
  match st with Some (stack, w) => Ok (rev stack, w) | None => Abort end.

Lemma si_loop_spec fuel : forall pre post msgs,
  length post < fuel ->
  si_loop fuel pre post msgs = si_out (fold_left si_word post (Some (pre, msgs))).
Proof.
  induction fuel as [|f IH]; intros pre post msgs Hf; [lia|].
  cbn [si_loop]. destruct post as [|x nt]; [reflexivity|]. cbn [length] in Hf.
  destruct (cmtest x T_SI) eqn:E.
  2:{ rewrite IH by lia. cbn [fold_left]. rewrite si_word_other by assumption. reflexivity. }
  destruct pre as [|y pre'].
  { rewrite IH by lia. cbn [fold_left]. rewrite si_word_si by assumption. reflexivity. }
  cbn [fold_left]. rewrite si_word_si by assumption. unfold nibble. rewrite units_require.
  destruct (units (dat y)) as [u|] eqn:Hu.
  2:{ rewrite si_word_none. reflexivity. }
  destruct (eat_si (u - 1) nt) as [short z] eqn:Heat.
  destruct (eat_si_spec _ _ _ _ Heat) as (sis & -> & HF & Hlen).
  rewrite app_length in Hf.
  rewrite fold_left_app.
  destruct u as [|[|u]].
  - destruct sis; cbn in Hlen; [|lia]. destruct short; [|lia].
    cbn [fold_left app]. rewrite IH by (cbn in Hf; lia). reflexivity.
  - destruct sis; cbn in Hlen; [|lia]. destruct short; [|lia].
    cbn [fold_left app]. rewrite IH by (cbn in Hf; lia). reflexivity.
  - cbn [app]. destruct short as [|short].
    + rewrite IH by lia. replace (S u) with (length sis) by lia.
      rewrite fold_broken_all by (auto; lia). reflexivity.
    + rewrite IH by lia. rewrite (fold_broken sis) by (auto; lia).
      replace (S u - length sis) with (S short) by lia. reflexivity.
Qed.

Lemma handle_si_spec toks :
  handle_si toks = match si_spec toks with Some (stack, w) => Ok (rev stack, w) | None => Abort end.
Proof. unfold handle_si. rewrite si_loop_spec by lia. reflexivity. Qed.

(* ---------- sa ---------- *)
Lemma sa_match_iff y w : sa_match y w = true <-> same_kind y w.
Proof.
  unfold sa_match, same_kind.
  destruct (dat y) eqn:Ey, (dat w) eqn:Ew; cbn; try (split; [discriminate|tauto]); try tauto.
  all: try (split; intros; exact I || reflexivity).
  apply tok_eqb_eq.
Qed.
Lemma sa_match_false y w : sa_match y w = false <-> ~ same_kind y w.
Proof. rewrite <- sa_match_iff. destruct (sa_match y w); intuition congruence. Qed.

Lemma sa_back_app w mid y l :
  Forall (fun m => ~ same_kind m w) mid -> same_kind y w ->
  sa_back w (mid ++ y :: l) = l.
Proof.
  intros HF Hy. induction mid as [|m mid IH]; cbn.
  - apply sa_match_iff in Hy. rewrite Hy. reflexivity.
  - inversion HF; subst. replace (sa_match m w) with false by (symmetry; apply sa_match_false; auto).
    auto.
Qed.
Lemma sa_back_none w l : Forall (fun m => ~ same_kind m w) l -> sa_back w l = [].
Proof.
  intro HF. induction l as [|m l IH]; cbn; auto. inversion HF; subst.
  replace (sa_match m w) with false by (symmetry; apply sa_match_false; auto). auto.
Qed.
Lemma sa_skip l : forall pre rest,
  Forall (fun x => ~ cmavo_of T_SA x) l -> rest <> [] ->
  sa_loop pre (l ++ rest) = sa_loop (rev l ++ pre) rest.
Proof.
  induction l as [|x l IH]; intros pre rest HF Hr; [reflexivity|].
  inversion HF; subst. cbn [app]. cbn [sa_loop].
  destruct (l ++ rest) as [|n r] eqn:E.
  { apply app_eq_nil in E. destruct E; congruence. }
  replace (cmtest x T_SA) with false by (symmetry; apply cmtest_false; auto).
  rewrite <- E, IH by assumption. cbn [rev]. rewrite <- app_assoc. reflexivity.
Qed.
Lemma sa_loop_single pre x : sa_loop pre [x] = rev pre ++ [x].
Proof. cbn. reflexivity. Qed.
Lemma sa_loop_nosa l : forall pre,
  Forall (fun x => ~ cmavo_of T_SA x) l -> sa_loop pre l = rev pre ++ l.
Proof.
  induction l as [|x l IH]; intros pre HF.
  - cbn. rewrite app_nil_r. reflexivity.
  - inversion HF; subst. cbn [sa_loop]. destruct l as [|y l'].
    + reflexivity.
    + replace (cmtest x T_SA) with false by (symmetry; apply cmtest_false; auto).
      rewrite IH by assumption. cbn [rev]. rewrite <- app_assoc. reflexivity.
Qed.
Lemma Forall_rev' {A} (P : A -> Prop) l : Forall P l -> Forall P (rev l).
Proof. intro H. apply Forall_forall. intros x Hx. apply in_rev in Hx. rewrite Forall_forall in H. auto. Qed.

Lemma handle_sa_law : sa_law handle_sa.
Proof.
  constructor; unfold handle_sa.
  - intros l H. rewrite sa_loop_nosa by assumption. reflexivity.
  - intros l s H Hs. rewrite sa_skip by (auto; discriminate).
    rewrite sa_loop_single, rev_app_distr, rev_involutive. reflexivity.
  - intros l y mid s w rest HF Hs Hk Hm.
    replace (l ++ y :: mid ++ s :: w :: rest) with ((l ++ y :: mid) ++ s :: w :: rest)
      by (rewrite <- app_assoc; reflexivity).
    rewrite sa_skip by (auto; discriminate).
    cbn [sa_loop]. replace (cmtest s T_SA) with true by (symmetry; apply cmtest_iff; auto).
    rewrite rev_app_distr. cbn [rev]. rewrite app_nil_r, <- app_assoc. cbn [app].
    rewrite sa_back_app by (auto using Forall_rev').
    apply Forall_app in HF. destruct HF as [HF _].
    rewrite (sa_skip l) by (auto; discriminate). rewrite app_nil_r. reflexivity.
  - intros l s w rest HF Hs Hm. rewrite sa_skip by (auto; discriminate).
    cbn [sa_loop]. replace (cmtest s T_SA) with true by (symmetry; apply cmtest_iff; auto).
    rewrite app_nil_r. rewrite sa_back_none by (auto using Forall_rev'). reflexivity.
Qed.

(* the laws determine the function *)
Lemma first_sa l : Forall (fun x => ~ cmavo_of T_SA x) l \/
  exists a s b, l = a ++ s :: b /\ Forall (fun x => ~ cmavo_of T_SA x) a /\ cmavo_of T_SA s.
Proof.
  induction l as [|x l IH]; [left; constructor|].
  destruct (cmtest x T_SA) eqn:E.
  - right. exists [], x, l. cbn. repeat split; auto. apply cmtest_iff; auto.
  - apply cmtest_false in E. destruct IH as [IH|(a & s & b & -> & Ha & Hs)].
    + left; constructor; auto.
    + right. exists (x :: a), s, b. cbn. repeat split; auto.
Qed.
Lemma last_match w l : Forall (fun m => ~ same_kind m w) l \/
  exists a y mid, l = a ++ y :: mid /\ same_kind y w /\ Forall (fun m => ~ same_kind m w) mid.
Proof.
  induction l as [|x l IH]; [left; constructor|].
  destruct IH as [IH|(a & y & mid & -> & Hy & Hm)].
  - destruct (sa_match x w) eqn:E.
    + right. exists [], x, l. cbn. repeat split; auto. apply sa_match_iff; auto.
    + left. constructor; auto. apply sa_match_false; auto.
  - right. exists (x :: a), y, mid. auto.
Qed.
Lemma sa_law_unique f g : sa_law f -> sa_law g -> forall l, f l = g l.
Proof.
  intros Hf Hg l.
  remember (length l) as n eqn:Hn. revert l Hn.
  induction n as [n IH] using lt_wf_ind. intros l Hn.
  destruct (first_sa l) as [H|(a & s & b & -> & Ha & Hs)].
  { rewrite (sa_none _ Hf), (sa_none _ Hg) by assumption. reflexivity. }
  destruct b as [|w rest].
  { rewrite (sa_last _ Hf), (sa_last _ Hg) by assumption. reflexivity. }
  destruct (last_match w a) as [Hm|(a' & y & mid & -> & Hy & Hm)].
  - rewrite (sa_notfound _ Hf), (sa_notfound _ Hg) by assumption.
    apply (IH (length (w :: rest))); [|reflexivity]. rewrite app_length in Hn. cbn [length] in *. lia.
  - rewrite <- app_assoc. cbn [app].
    rewrite (sa_found _ Hf), (sa_found _ Hg) by assumption.
    apply (IH (length (a' ++ w :: rest))); [|reflexivity].
    rewrite app_length in Hn. cbn [length] in Hn. rewrite !app_length in *. cbn [length] in *. lia.
Qed.

(* ---------- su ---------- *)
Lemma su_boundary_iff y : su_boundary y = true <-> boundary y.
Proof.
  unfold su_boundary, boundary. rewrite !orb_true_iff, !cmtest_iff. tauto.
Qed.
Lemma su_boundary_false y : su_boundary y = false <-> ~ boundary y.
Proof. rewrite <- su_boundary_iff. destruct (su_boundary y); intuition congruence. Qed.
Lemma su_back_app mid y l :
  Forall (fun m => ~ boundary m) mid -> boundary y -> su_back (mid ++ y :: l) = l.
Proof.
  intros HF Hy. induction mid as [|m mid IH]; cbn.
  - apply su_boundary_iff in Hy. rewrite Hy. reflexivity.
  - inversion HF; subst. replace (su_boundary m) with false by (symmetry; apply su_boundary_false; auto).
    auto.
Qed.
Lemma su_back_none l : Forall (fun m => ~ boundary m) l -> su_back l = [].
Proof.
  intro HF. induction l as [|m l IH]; cbn; auto. inversion HF; subst.
  replace (su_boundary m) with false by (symmetry; apply su_boundary_false; auto). auto.
Qed.
Lemma su_skip l : forall pre rest,
  Forall (fun x => ~ cmavo_of T_SU x) l ->
  su_loop pre (l ++ rest) = su_loop (rev l ++ pre) rest.
Proof.
  induction l as [|x l IH]; intros pre rest HF; [reflexivity|].
  inversion HF; subst. cbn [app su_loop].
  replace (cmtest x T_SU) with false by (symmetry; apply cmtest_false; auto).
  rewrite IH by assumption. cbn [rev]. rewrite <- app_assoc. reflexivity.
Qed.
Lemma su_loop_single s pre rest :
  cmavo_of T_SU s -> (forall s' r', rest = s' :: r' -> ~ cmavo_of T_SU s') ->
  su_loop pre (s :: rest) = su_loop (su_back pre) rest.
Proof.
  intros Hs Hr. cbn [su_loop]. replace (cmtest s T_SU) with true by (symmetry; apply cmtest_iff; auto).
  destruct rest as [|s' r']; [reflexivity|].
  replace (cmtest s' T_SU) with false; [reflexivity|].
  symmetry; apply cmtest_false. eapply Hr; reflexivity.
Qed.
Lemma handle_su_law : su_law handle_su.
Proof.
  constructor; unfold handle_su.
  - intros l H. rewrite <- (app_nil_r l) at 1. rewrite su_skip by assumption.
    cbn. rewrite app_nil_r. apply rev_involutive.
  - intros l s s' rest HF Hs Hs'. rewrite su_skip by assumption. cbn [su_loop].
    replace (cmtest s T_SU) with true by (symmetry; apply cmtest_iff; auto).
    replace (cmtest s' T_SU) with true by (symmetry; apply cmtest_iff; auto). reflexivity.
  - intros l y mid s rest HF Hs Hy Hm Hr.
    replace (l ++ y :: mid ++ s :: rest) with ((l ++ y :: mid) ++ s :: rest)
      by (rewrite <- app_assoc; reflexivity).
    rewrite su_skip by assumption. rewrite su_loop_single by assumption.
    rewrite rev_app_distr. cbn [rev]. rewrite app_nil_r, <- app_assoc. cbn [app].
    rewrite su_back_app by (auto using Forall_rev').
    apply Forall_app in HF. destruct HF as [HF _].
    rewrite (su_skip l) by assumption. rewrite app_nil_r. reflexivity.
  - intros l s rest HF Hs Hm Hr. rewrite su_skip by assumption.
    rewrite su_loop_single by assumption. rewrite app_nil_r, su_back_none by (auto using Forall_rev').
    reflexivity.
Qed.
Lemma first_su l : Forall (fun x => ~ cmavo_of T_SU x) l \/
  exists a s b, l = a ++ s :: b /\ Forall (fun x => ~ cmavo_of T_SU x) a /\ cmavo_of T_SU s.
Proof.
  induction l as [|x l IH]; [left; constructor|].
  destruct (cmtest x T_SU) eqn:E.
  - right. exists [], x, l. cbn. repeat split; auto. apply cmtest_iff; auto.
  - apply cmtest_false in E. destruct IH as [IH|(a & s & b & -> & Ha & Hs)].
    + left; constructor; auto.
    + right. exists (x :: a), s, b. cbn. repeat split; auto.
Qed.
Lemma last_boundary l : Forall (fun m => ~ boundary m) l \/
  exists a y mid, l = a ++ y :: mid /\ boundary y /\ Forall (fun m => ~ boundary m) mid.
Proof.
  induction l as [|x l IH]; [left; constructor|].
  destruct IH as [IH|(a & y & mid & -> & Hy & Hm)].
  - destruct (su_boundary x) eqn:E.
    + right. exists [], x, l. cbn. repeat split; auto. apply su_boundary_iff; auto.
    + left. constructor; auto. apply su_boundary_false; auto.
  - right. exists (x :: a), y, mid. auto.
Qed.
Lemma su_law_unique f g : su_law f -> su_law g -> forall l, f l = g l.
Proof.
  intros Hf Hg l.
  remember (length l) as n eqn:Hn. revert l Hn.
  induction n as [n IH] using lt_wf_ind. intros l Hn.
  destruct (first_su l) as [H|(a & s & b & -> & Ha & Hs)].
  { rewrite (su_none _ Hf), (su_none _ Hg) by assumption. reflexivity. }
  rewrite app_length in Hn. cbn [length] in Hn.
  assert (Hcase : (exists s' r, b = s' :: r /\ cmavo_of T_SU s') \/
                  (forall s' r', b = s' :: r' -> ~ cmavo_of T_SU s')).
  { destruct b as [|s' r]; [right; discriminate|].
    destruct (cmtest s' T_SU) eqn:E.
    - left. exists s', r. split; auto. apply cmtest_iff; auto.
    - right. intros s'' r' [= <- <-]. apply cmtest_false; auto. }
  destruct Hcase as [(s' & r & -> & Hs')|Hr].
  - rewrite (su_double _ Hf), (su_double _ Hg) by assumption.
    apply (IH (length r)); [cbn in Hn; lia|reflexivity].
  - destruct (last_boundary a) as [Hm|(a' & y & mid & -> & Hy & Hm)].
    + rewrite (su_notfound _ Hf), (su_notfound _ Hg) by assumption.
      apply (IH (length b)); [lia|reflexivity].
    + rewrite <- app_assoc. cbn [app].
      rewrite (su_found _ Hf), (su_found _ Hg) by assumption.
      apply (IH (length (a' ++ b))); [|reflexivity].
      rewrite app_length in *. cbn [length] in *. lia.
Qed.

(* ---------- no erasure words ---------- *)
Lemma si_spec_nosi l : forall st w,
  Forall (fun x => ~ cmavo_of T_SI x) l ->
  fold_left si_word l (Some (st, w)) = Some (rev l ++ st, w).
Proof.
  induction l as [|x l IH]; intros st w HF; [reflexivity|].
  inversion HF; subst. cbn [fold_left]. rewrite si_word_other by (apply cmtest_false; auto).
  rewrite IH by assumption. cbn [rev]. rewrite <- app_assoc. reflexivity.
Qed.
Lemma do_erasures_none toks :
  Forall (fun x => ~ cmavo_of T_SI x /\ ~ cmavo_of T_SA x /\ ~ cmavo_of T_SU x) toks ->
  do_erasures toks = Ok (toks, []).
Proof.
  intro HF. unfold do_erasures. rewrite handle_si_spec. unfold si_spec.
  rewrite si_spec_nosi by (eapply Forall_impl; [|exact HF]; intros ? (?&?&?); assumption).
  cbn [obind]. rewrite app_nil_r, rev_involutive.
  rewrite (sa_none _ handle_sa_law) by (eapply Forall_impl; [|exact HF]; intros ? (?&?&?); assumption).
  rewrite (su_none _ handle_su_law) by (eapply Forall_impl; [|exact HF]; intros ? (?&?&?); assumption).
  reflexivity.
Qed.

(* words after the last si are untouched, whatever came before *)
Lemma handle_si_suffix a b :
  Forall (fun x => ~ cmavo_of T_SI x) b ->
  handle_si (a ++ b) =
  match handle_si a with Ok (r, w) => Ok (r ++ b, w) | o => o end.
Proof.
  intro HF. rewrite !handle_si_spec. unfold si_spec. rewrite fold_left_app.
  destruct (fold_left si_word a _) as [[st w]|] eqn:E.
  - rewrite si_spec_nosi by assumption. rewrite rev_app_distr, rev_involutive. reflexivity.
  - rewrite si_word_none. reflexivity.
Qed.

(* exactly which texts make si processing stop the program *)
Lemma handle_si_total toks :
  Forall (fun x => units (dat x) <> None) toks ->
  exists r w, handle_si toks = Ok (r, w) /\ Forall (fun x => units (dat x) <> None) r.
Proof.
  intro HF. rewrite handle_si_spec. unfold si_spec.
  assert (G : forall l st w, Forall (fun x => units (dat x) <> None) l ->
     Forall (fun x => units (dat x) <> None) st ->
     exists st' w', fold_left si_word l (Some (st, w)) = Some (st', w') /\
                    Forall (fun x => units (dat x) <> None) st').
  { induction l as [|x l IH]; intros st w Hl Hst; cbn [fold_left].
    - eauto.
    - inversion Hl; subst. destruct (cmtest x T_SI) eqn:E.
      + rewrite si_word_si by assumption. destruct st as [|y st'].
        * apply IH; auto.
        * inversion Hst; subst. unfold nibble.
          destruct (units (dat y)) as [[|[|k]]|] eqn:Hu; try congruence; cbn [app]; apply IH; auto.
          constructor; auto. rewrite dat_set_dat. discriminate.
      + rewrite si_word_other by assumption. apply IH; auto. }
  destruct (G toks [] [] HF (Forall_nil _)) as (st' & w' & -> & Hst').
  exists (rev st'), w'. split; [reflexivity|]. apply Forall_rev'; assumption.
Qed.
