From Coq Require Import String List NArith Bool Arith Lia.
From Verif Require Import Base TokData TokModel ErasureProofs DfaModel CategModel CategSpec CategProofs CategProofs2.
Import ListNotations.
Open Scope N_scope.
Open Scope list_scope.

(* ---------------------------------------------------------------- *)
(* the concrete kinds *)

Lemma takes_sim ts a n n' : takes ts a n -> sim n n' -> takes ts a n'.
Proof.
  intros H Hs. induction H as [n|t ts a n H IH|t ts a n H IH Hd].
  - constructor.
  - constructor. auto.
  - apply tk_pass; [auto|]. destruct a as [|i a]; [|exact Hd]. destruct Hs as [->|(t' & ->)]; [exact Hd|discriminate].
Qed.

Lemma takes_in ts a n : takes ts a n -> forallb (w_in ts) a = true.
Proof.
  assert (M : forall t ts l, forallb (w_in ts) l = true -> forallb (w_in (t :: ts)) l = true).
  { intros. eapply w_in_mono; [|eassumption]. apply incl_tl, incl_refl. }
  induction 1; auto. cbn. rewrite tok_eqb_refl. cbn. apply M. assumption.
Qed.

Definition ck_al (k : conn_kind) (i : item) : bool :=
  match i with
  | W t => existsb (fun c => tok_eqb t (fst (fst c)) || existsb (tok_eqb t) (snd (fst c))
                             || existsb (tok_eqb t) (snd c)) (ck_cores k)
  | M t => match ck_end k with Some e => tok_eqb t e | None => false end
  | _ => false
  end.
Definition ck_fin (k : conn_kind) (i : item) : bool :=
  match ck_end k with
  | Some e => item_eqb i (M e)
  | None => core_item k i
  end.
Definition ck_hd (k : conn_kind) (i : item) : bool := item_eqb i (M (ck_start k)).

Definition tidy (k : conn_kind) : Prop :=
  ck_end k = None -> Forall (fun c => snd c = []) (ck_cores k).

Lemma ck_shape k : tidy k -> forall u g v, connective k u g v ->
  exists s r e, g = s :: r ++ [e] /\ ck_hd k s = true /\ forallb (ck_al k) (r ++ [e]) = true /\ ck_fin k e = true.
Proof.
  intros T u g v (c & ts & fs & a & b & I & Ta & Tb & ->).
  assert (Hc : ck_al k (W c) = true).
  { apply existsb_exists. exists (c, ts, fs). split; [exact I|]. cbn. rewrite tok_eqb_refl. reflexivity. }
  assert (Ha : forallb (ck_al k) a = true).
  { apply takes_in in Ta. rewrite forallb_forall in *. intros i Hi. specialize (Ta i Hi). destruct i; try discriminate.
    apply existsb_exists. exists (c, ts, fs). split; [exact I|]. cbn in *. rewrite Ta, orb_true_r. reflexivity. }
  assert (Hb : forallb (ck_al k) b = true).
  { apply takes_in in Tb. rewrite forallb_forall in *. intros i Hi. specialize (Tb i Hi). destruct i; try discriminate.
    apply existsb_exists. exists (c, ts, fs). split; [exact I|]. cbn in *. rewrite Tb, orb_true_r. reflexivity. }
  assert (Hs : ck_hd k (M (ck_start k)) = true) by apply tok_eqb_refl.
  destruct (ck_end k) as [e|] eqn:Ee.
  - exists (M (ck_start k)), (rev a ++ W c :: b), (M e). rewrite <- !app_assoc. repeat split; auto.
    + cbn [app]. rewrite forallb_app, forallb_rev, Ha. cbn [forallb]. rewrite Hc, forallb_app, Hb. cbn. rewrite Ee, tok_eqb_refl. reflexivity.
    + unfold ck_fin. rewrite Ee. apply tok_eqb_refl.
  - specialize (T Ee). rewrite Forall_forall in T. specialize (T _ I). cbn in T. subst fs.
    assert (b = []) by (inversion Tb; reflexivity). subst b.
    exists (M (ck_start k)), (rev a), (W c). repeat split; auto.
    + rewrite forallb_app, forallb_rev, Ha. cbn. rewrite andb_true_r. exact Hc.
    + unfold ck_fin. rewrite Ee. cbn. apply existsb_exists. exists (c, ts, []). split; [exact I|]. apply tok_eqb_refl.
Qed.

Lemma ck_mono k u g v u' v' : connective k u g v -> sim (neighbour (rev u)) (neighbour (rev u')) ->
  sim (neighbour v) (neighbour v') -> connective k u' g v'.
Proof.
  intros (c & ts & fs & a & b & I & Ta & Tb & E) H1 H2. exists c, ts, fs, a, b. repeat split; auto.
  - eapply takes_sim; eauto.
  - eapply takes_sim; eauto.
Qed.

Definition conn (k : conn_kind) (T : tidy k) (sel : item -> bool) : akind :=
  AKind sel (ck_al k) (ck_fin k) (ck_hd k) (connective k) (ck_shape k T) (ck_mono k).

Definition both (k : conn_kind) (i : item) : bool := core_item k i || bracket_item k i.

Ltac tidy_tac := first [discriminate | intros _; repeat constructor].
Definition Kjek := conn jek ltac:(tidy_tac) (both jek).
Definition Kjoik := conn joik ltac:(tidy_tac) (both joik).
Definition Kek := conn ek ltac:(tidy_tac) (both ek).
Definition Kgihek := conn gihek ltac:(tidy_tac) (both gihek).
Definition Kguhek := conn guhek ltac:(tidy_tac) (both guhek).
Definition Kgek := conn gek ltac:(tidy_tac) (core_item gek).

Definition t_al (i : item) : bool :=
  match tense_token i with
  | Some _ => true
  | None => item_eqb i (M T_PRIVATE_NUMBER_ROI) || item_eqb i (M T_PRIVATE_END_TENSE)
  end.

Lemma tense_items src b :
  tense src (filter (fun i => negb (item_eqb i (M T_PRIVATE_NUMBER_ROI))) b) -> forallb t_al b = true.
Proof.
  intros (w & r & E & _). clear r. revert w E. induction b as [|i b IH]; intros w E; [reflexivity|].
  cbn [forallb]. cbn [filter] in E. unfold t_al at 1. destruct (item_eqb i (M T_PRIVATE_NUMBER_ROI)) eqn:Ei.
  - cbn [negb] in E. rewrite (IH w E). destruct (tense_token i); reflexivity.
  - cbn [negb map] in E. destruct w as [|x w]; [discriminate|]. cbn [map] in E. injection E as E1 E2.
    rewrite E1. cbn. eauto.
Qed.

Lemma t_shape src u g v : tense_region src u g v ->
  exists s r e, g = s :: r ++ [e] /\ item_eqb s (M T_PRIVATE_START_TENSE) = true /\ forallb t_al (r ++ [e]) = true /\
    item_eqb e (M T_PRIVATE_END_TENSE) = true.
Proof.
  intros (b & -> & T). exists (M T_PRIVATE_START_TENSE), b, (M T_PRIVATE_END_TENSE). repeat split.
  rewrite forallb_app, (tense_items _ _ T). reflexivity.
Qed.

Lemma t_mono src u g v u' v' : tense_region src u g v -> sim (neighbour (rev u)) (neighbour (rev u')) ->
  sim (neighbour v) (neighbour v') -> tense_region src u' g v'.
Proof. intros (b & E & T) _ _. exists b. auto. Qed.

Definition Ktense (src : source) : akind :=
  AKind tense_bracket t_al (fun i => item_eqb i (M T_PRIVATE_END_TENSE))
    (fun i => item_eqb i (M T_PRIVATE_START_TENSE)) (tense_region src) (t_shape src) (t_mono src).

(* ---------------------------------------------------------------- *)
(* side conditions by enumeration *)

Definition all_items : list item := Bu :: X :: map W all_toks ++ map M all_toks.

Lemma all_toks_in t : In t all_toks.
Proof.
  assert (H : existsb (tok_eqb t) all_toks = true) by (destruct t; vm_compute; reflexivity).
  apply existsb_exists in H. destruct H as (x & Hx & E). apply tok_eqb_eq in E. subst x. exact Hx.
Qed.

Lemma all_items_in i : In i all_items.
Proof.
  unfold all_items. destruct i as [t| |t|]; [right; right; apply in_or_app; left|left|right; right; apply in_or_app; right|right; left];
    try reflexivity; apply in_map, all_toks_in.
Qed.

Definition foreignb (K : akind) (co si : item -> bool) (bwd : bool) (mk : tok -> bool) : bool :=
  forallb (fun i => implb (co i) (negb (a_al K i) && (negb bwd || negb (a_hd K i)))
                    && implb (si i) (negb (a_fin K i) && (negb bwd || negb (a_hd K i)))
                    && match i with M t => implb (mk t) (negb (a_sel K (M t))) | _ => true end) all_items.

Lemma foreignb_ok K co si bwd mk : foreignb K co si bwd mk = true -> foreign K co si bwd mk.
Proof.
  unfold foreignb. intro H. rewrite forallb_forall in H. split; [|split].
  - intros t Ht. specialize (H (M t) (all_items_in _)). cbn in H. rewrite Ht in H. apply andb_true_iff in H.
    destruct H as [_ H]. cbn in H. apply negb_true_iff. exact H.
  - intros i Hi. specialize (H i (all_items_in _)). rewrite Hi in H. apply andb_true_iff in H. destruct H as [H _].
    apply andb_true_iff in H. destruct H as [H _]. cbn in H. apply andb_true_iff in H. destruct H as [H1 H2].
    split; [apply negb_true_iff; exact H1|]. intros ->. cbn in H2. apply negb_true_iff. exact H2.
  - intros i Hi. specialize (H i (all_items_in _)). rewrite Hi in H. apply andb_true_iff in H. destruct H as [H _].
    apply andb_true_iff in H. destruct H as [_ H]. cbn in H. apply andb_true_iff in H. destruct H as [H1 H2].
    split; [apply negb_true_iff; exact H1|]. intros ->. cbn in H2. apply negb_true_iff. exact H2.
Qed.

(* ---------------------------------------------------------------- *)
(* a pass establishes its own kind *)

Lemma over_takes ts : forall l a b, over ts l = (a, b) -> takes ts (items a) (hd_error (items b)).
Proof.
  induction ts as [|t ts IH]; intros l a b H; cbn [over] in H.
  - injection H as <- <-. constructor.
  - destruct l as [|y l].
    + injection H as <- <-. cbn. clear IH. revert t. induction ts as [|t' ts IH]; intro t; (apply tk_pass; [|discriminate]); [constructor|apply IH].
    + destruct (cmtest y t) eqn:E.
      * destruct (over ts l) as [a' b'] eqn:E'. injection H as <- <-. apply cmtest_item in E. cbn [items map]. rewrite E.
        apply tk_take. eapply IH; eauto.
      * assert (T := IH _ _ _ H). apply tk_pass; [exact T|]. destruct (over_ok _ _ _ _ H) as [El _].
        intro K. assert (K' : hd_error (items (y :: l)) = Some (W t)).
        { rewrite El, items_app. destruct (items a); [|exact K]. cbn in K |- *. destruct (items b); exact K. }
        cbn in K'. injection K' as K'. apply cmtest_item in K'. congruence.
Qed.

Lemma neighbour_all l : forallb counts l = true -> neighbour l = hd_error l.
Proof. destruct l as [|i l]; [reflexivity|]. cbn. intro H. apply andb_true_iff in H. unfold neighbour. cbn. rewrite (proj1 H). reflexivity. Qed.

(* the model's data and the kind agree *)
Definition matches (k : conn_kind) (ks : list closed_conn) : Prop :=
  (forall q, In q ks -> In (k_core q, k_back q, k_fwd q) (ck_cores k) /\ k_start q = ck_start k /\
     ck_end k = Some (k_end q)) /\
  (forall t, core_item k (W t) = true -> In t (ks_core ks)) /\ counts (M (ck_start k)) = true /\
  (forall e, ck_end k = Some e -> counts (M e) = true).

Lemma forallb_app_l {A} (f : A -> bool) a b : forallb f (a ++ b) = true -> forallb f a = true /\ forallb f b = true.
Proof. rewrite forallb_app. apply andb_true_iff. Qed.

Lemma item_of_marker t l : item_of (marker t l) = M t.
Proof. reflexivity. Qed.

Lemma existsb_w_fin k a ts : ck_end k <> None \/ (forall t, In t ts -> core_item k (W t) = false) ->
  forallb (w_in ts) a = true -> existsb (ck_fin k) a = false.
Proof.
  intros H F. eapply forallb_existsb; [|exact F]. intros [t| | |] Hi; try discriminate. unfold ck_fin.
  destruct (ck_end k); [reflexivity|]. destruct H as [H|H]; [contradiction|]. apply H.
  cbn in Hi. apply existsb_exists in Hi. destruct Hi as (t' & Ht & E). apply tok_eqb_eq in E. subst. exact Ht.
Qed.

Lemma closed_pass_own k (T : tidy k) ks : matches k ks -> forall fuel pre post out,
  closed_pass fuel ks pre post = Ok out ->
  forallb counts (items pre) = true -> forallb counts (items post) = true ->
  existsb (bracket_item k) (items post) = false ->
  Q (conn k T (both k)) (items (rev pre)) (items post) ->
  Q (conn k T (both k)) (items out) [] /\ forallb counts (items out) = true.
Proof.
  intros (M1 & M2 & M3 & M4). induction fuel as [|fuel IH]; intros pre post out E C1 C2 NB H; [discriminate|].
  cbn [closed_pass] in E. destruct post as [|x post].
  - injection E as <-. split; [exact H|]. rewrite items_rev, forallb_rev. exact C1.
  - cbn [items map forallb existsb] in C2, NB. apply andb_true_iff in C2. destruct C2 as [Cx C2].
    apply orb_false_iff in NB. destruct NB as [Nx NB]. destruct (find (fun q => cmtest x (k_core q)) ks) as [q|] eqn:Fq.
    + apply find_some in Fq. destruct Fq as [Iq Eq]. apply cmtest_item in Eq. destruct (M1 q Iq) as (I & Es & Ee).
      destruct (over (k_fwd q) post) as [a b] eqn:Eo. destruct (over_ok _ _ _ _ Eo) as [-> Fa].
      assert (Ta := over_takes _ _ _ _ Eo).
      unfold insert_back in E. destruct (over (k_back q) pre) as [a0 b0] eqn:Ep. destruct (over_ok _ _ _ _ Ep) as [-> F0].
      assert (T0 := over_takes _ _ _ _ Ep).
      fold (items (a ++ b)) in C2, NB. rewrite items_app in C1, C2, NB. rewrite existsb_app in NB.
      apply orb_false_iff in NB. destruct NB as [_ NB].
      apply forallb_app_l in C1. destruct C1 as [C1a C1b]. apply forallb_app_l in C2. destruct C2 as [C2a C2b].
      apply IH in E; auto.
      * unfold items at 1. cbn [map]. fold items. rewrite item_of_marker, items_app. cbn [items map forallb]. rewrite Eq.
        fold (items (a0 ++ marker (k_start q) b0 :: b0)). rewrite items_app. cbn [items map]. rewrite item_of_marker.
        rewrite !forallb_app. cbn [forallb]. rewrite forallb_app. cbn [forallb]. fold (items (rev a)). rewrite items_rev, forallb_rev, C2a.
        fold (items a0). fold (items b0). rewrite C1a, C1b, Es, M3, (M4 _ Ee). reflexivity.
      * cbn [rev]. rewrite rev_app_distr, rev_involutive. cbn [rev]. rewrite rev_app_distr. cbn [rev].
        rewrite <- !app_assoc. cbn [app]. rewrite items_app.
        replace (items (marker (k_start q) b0 :: rev a0 ++ x :: a ++ [marker (k_end q) b]))
          with (M (ck_start k) :: rev (items a0) ++ W (k_core q) :: items a ++ [M (k_end q)]).
        2:{ cbn [items map]. rewrite item_of_marker, Es. f_equal. fold items. rewrite <- items_rev. unfold items.
            rewrite !map_app. cbn [map]. rewrite !map_app. cbn [map]. rewrite item_of_marker, Eq. reflexivity. }
        apply Q_add with (r0 := items (rev a0 ++ x :: a ++ b)).
        -- rewrite rev_app_distr, items_app in H. apply Q_shrink in H.
           ++ rewrite items_app. exact H.
           ++ cbn [conn a_fin]. rewrite items_rev. eapply existsb_w_fin with (ts := k_back q); [left; congruence|].
              rewrite forallb_rev. exact F0.
        -- intro z. rewrite items_app, items_rev. cbn [items map]. fold items. rewrite Eq, items_app.
           eapply sim_trans; [apply (sim_insert z (ck_start k))|].
           replace (z ++ (M (ck_start k) :: rev (items a0) ++ W (k_core q) :: items a ++ [M (k_end q)]) ++ items b)
             with ((z ++ M (ck_start k) :: rev (items a0) ++ W (k_core q) :: items a) ++ M (k_end q) :: items b).
           2:{ rewrite <- !app_assoc. cbn [app]. rewrite <- !app_assoc. cbn [app]. rewrite <- !app_assoc. reflexivity. }
           replace (z ++ M (ck_start k) :: rev (items a0) ++ W (k_core q) :: items a ++ items b)
             with ((z ++ M (ck_start k) :: rev (items a0) ++ W (k_core q) :: items a) ++ items b).
           2:{ rewrite <- !app_assoc. cbn [app]. rewrite <- !app_assoc. reflexivity. }
           apply sim_insert.
        -- cbn [conn a_occ]. exists (k_core q), (k_back q), (k_fwd q), (items a0), (items a).
           rewrite <- items_rev, rev_involutive. rewrite !neighbour_all by assumption. rewrite Ee. auto.
    + apply IH in E; auto.
      * cbn [items map forallb]. rewrite Cx. exact C1.
      * cbn [rev]. rewrite items_app. apply Q_snoc; [exact H|]. cbn [conn a_sel]. unfold both. rewrite Nx, orb_false_r.
        destruct (item_of x) as [t| | |] eqn:Ex; try reflexivity. destruct (core_item k (W t)) eqn:Ec; [|reflexivity].
        apply M2 in Ec. unfold ks_core in Ec. apply in_map_iff in Ec. destruct Ec as (q & Et & Iq).
        assert (K := find_none _ _ Fq q Iq). cbn in K. assert (cmtest x (k_core q) = true) by (apply cmtest_item; congruence). congruence.
Qed.

(* one step of a pass with start marker only *)
Lemma open_step k (T : tidy k) sel c ts x pre post :
  ck_cores k = [(c, ts, [])] -> ck_end k = None -> (forall t, In t ts -> core_item k (W t) = false) ->
  forallb counts (items pre) = true -> item_of x = W c ->
  Q (conn k T sel) (items (rev pre)) (items (x :: post)) ->
  Q (conn k T sel) (items (rev (x :: insert_back ts (ck_start k) pre))) (items post).
Proof.
  intros Ec Ee Ht C1 Ex H. unfold insert_back. destruct (over ts pre) as [a b] eqn:Ep.
  destruct (over_ok _ _ _ _ Ep) as [-> Fa]. assert (Ta := over_takes _ _ _ _ Ep).
  rewrite items_app in C1. apply forallb_app_l in C1. destruct C1 as [C1a C1b].
  cbn [rev]. rewrite rev_app_distr. cbn [rev]. rewrite <- !app_assoc. cbn [app]. rewrite items_app.
  replace (items (marker (ck_start k) b :: rev a ++ [x])) with (M (ck_start k) :: rev (items a) ++ [W c]).
  2:{ cbn [items map]. rewrite item_of_marker. f_equal. fold items. rewrite <- items_rev. unfold items. rewrite map_app. cbn [map].
      rewrite Ex. reflexivity. }
  apply Q_add with (r0 := items (rev a ++ x :: post)).
  - rewrite rev_app_distr, items_app in H. apply Q_shrink in H.
    + rewrite items_app. exact H.
    + cbn [conn a_fin]. rewrite items_rev. eapply existsb_w_fin with (ts := ts); [right; exact Ht|]. rewrite forallb_rev. exact Fa.
  - intro z. rewrite items_app, items_rev. cbn [items map]. fold items. rewrite Ex.
    eapply sim_trans; [apply (sim_insert z (ck_start k))|]. left. f_equal. f_equal. cbn [app]. rewrite <- app_assoc. reflexivity.
  - cbn [conn a_occ]. exists c, ts, [], (items a), []. rewrite Ec, Ee, <- items_rev, rev_involutive.
    rewrite neighbour_all by assumption. repeat split; auto; [left; reflexivity|constructor].
Qed.

Lemma insert_back_counts ts m pre : forallb counts (items pre) = true -> counts (M m) = true ->
  forallb counts (items (insert_back ts m pre)) = true.
Proof.
  intros C Cm. unfold insert_back. destruct (over ts pre) as [a b] eqn:Ep. destruct (over_ok _ _ _ _ Ep) as [-> _].
  rewrite items_app in *. apply forallb_app_l in C. destruct C as [C1 C2]. rewrite forallb_app, C1. cbn [items map forallb].
  rewrite item_of_marker, Cm. exact C2.
Qed.

Lemma open_pass_own k (T : tidy k) c ts : ck_cores k = [(c, ts, [])] -> ck_end k = None ->
  (forall t, In t ts -> core_item k (W t) = false) -> counts (M (ck_start k)) = true -> forall post pre,
  forallb counts (items pre) = true -> forallb counts (items post) = true ->
  existsb (bracket_item k) (items post) = false ->
  Q (conn k T (both k)) (items (rev pre)) (items post) ->
  Q (conn k T (both k)) (items (open_pass c ts (ck_start k) pre post)) [] /\
  forallb counts (items (open_pass c ts (ck_start k) pre post)) = true.
Proof.
  intros Ec Ee Ht Cs. induction post as [|x post IH]; intros pre C1 C2 NB H; cbn [open_pass].
  - split; [exact H|]. rewrite items_rev, forallb_rev. exact C1.
  - cbn [items map forallb existsb] in C2, NB. apply andb_true_iff in C2. destruct C2 as [Cx C2].
    apply orb_false_iff in NB. destruct NB as [Nx NB]. destruct (cmtest x c) eqn:E.
    + apply cmtest_item in E. apply IH; auto.
      * cbn [items map forallb]. rewrite Cx. apply insert_back_counts; assumption.
      * eapply open_step; eauto.
    + apply IH; auto.
      * cbn [items map forallb]. rewrite Cx. exact C1.
      * cbn [rev]. rewrite items_app. apply Q_snoc; [exact H|]. cbn [conn a_sel]. unfold both. rewrite Nx, orb_false_r.
        destruct (item_of x) as [t| | |] eqn:Ex; try reflexivity. cbn. rewrite Ec. cbn. rewrite orb_false_r.
        destruct (tok_eqb c t) eqn:Et; [|reflexivity]. apply tok_eqb_eq in Et. subst t.
        assert (cmtest x c = true) by (apply cmtest_item; exact Ex). congruence.
Qed.
