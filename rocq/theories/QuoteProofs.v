From Coq Require Import String List NArith Bool Arith Lia.
From Verif Require Import Base TokData CmavoData TokModel ErasureSpec ErasureProofs Lex2Spec Lex2Proofs Lex2Proofs2 QuoteSpec.
Import ListNotations.
Open Scope string_scope.
Open Scope list_scope.

Scheme sim_mind := Induction for sim Sort Prop
  with simd_mind := Induction for simd Sort Prop
  with simo_mind := Induction for simo Sort Prop
  with sims_mind := Induction for sims Sort Prop.

(* reflexivity *)
Lemma node_size_ind (P : node -> Prop)
  (H : forall d l c b g k u,
     match d with N_ZEI ch _ _ => Forall P ch | _ => True end ->
     match b with Some z => P z | None => True end -> Forall P u -> P (Node d l c b g k u)) : forall n, P n.
Proof.
  fix F 1. intros [d l c b g k u]. apply H.
  - destruct d; try exact I. induction children as [|x ch IH]; constructor; [apply F | exact IH].
  - destruct b as [z|]; [apply F | exact I].
  - induction u as [|x u IH]; constructor; [apply F | exact IH].
Qed.
Lemma sims_of l : Forall (fun n => sim n n) l -> sims l l.
Proof. induction 1; constructor; auto. Qed.
Lemma sim_refl n : sim n n.
Proof.
  induction n as [d l c b g k u D B U] using node_size_ind. constructor; [apply sd_same | | apply sims_of, U].
  destruct b; constructor. exact B.
Qed.
Lemma sims_refl l : sims l l.
Proof. apply sims_of. induction l; constructor; auto using sim_refl. Qed.

(* the tests of the passes *)
Lemma sim_dat x y : sim x y -> simd (dat x) (dat y).
Proof. intro H; inversion H; subst; assumption. Qed.
Lemma sim_pos x y : sim x y -> line x = line y /\ col x = col y.
Proof. intro H; inversion H; subst; auto. Qed.
Ltac bysimd H := apply sim_dat in H; destruct H; try reflexivity.
Lemma sim_cmtest x y t : sim x y -> cmtest x t = cmtest y t.
Proof. intro H. unfold cmtest. bysimd H. Qed.
Lemma sim_ind x y : sim x y -> is_indicator_cmavo x = is_indicator_cmavo y.
Proof. intro H. unfold is_indicator_cmavo. bysimd H. Qed.
Lemma sim_require x y : sim x y -> si_require x = si_require y.
Proof. intro H. unfold si_require. bysimd H. Qed.
Lemma sim_cai_of x y : sim x y -> cai_of x = cai_of y.
Proof. intro H. unfold cai_of. bysimd H. Qed.
Lemma sim_tag x y : sim x y -> type_tag (dat x) = type_tag (dat y).
Proof. intro H. bysimd H. Qed.
Lemma sim_sa x y a b : sim x y -> sim a b -> sa_match x a = sa_match y b.
Proof.
  intros H K. unfold sa_match. rewrite (sim_tag x y H), (sim_tag a b K). f_equal.
  apply sim_dat in H. apply sim_dat in K. destruct H, K; try reflexivity; destruct d; reflexivity.
Qed.
Lemma sim_su x y : sim x y -> su_boundary x = su_boundary y.
Proof. intro H. unfold su_boundary. rewrite !(sim_cmtest x y) by exact H. reflexivity. Qed.
Lemma sim_showable x y : sim x y -> showable x <-> showable y.
Proof. intro H. unfold showable. bysimd H; tauto. Qed.
Lemma sim_set_dat d d' x y : simd d d' -> sim x y -> sim (set_dat d x) (set_dat d' y).
Proof. intros D H. destruct H. constructor; auto. Qed.
Lemma sim_set_bahe a b x y : simo a b -> sim x y -> sim (set_bahe a x) (set_bahe b y).
Proof. intros D H. destruct H. constructor; auto. Qed.
Lemma sim_set_neg g x y : sim x y -> sim (set_neg g x) (set_neg g y).
Proof. intros H. destruct H. constructor; auto. Qed.
Lemma sim_set_cai g x y : sim x y -> sim (set_cai g x) (set_cai g y).
Proof. intros H. destruct H. constructor; auto. Qed.
Lemma sim_set_ui u v x y : sims u v -> sim x y -> sim (set_ui u x) (set_ui v y).
Proof. intros D H. destruct H. constructor; auto. Qed.
Lemma sims_app a b c d : sims a b -> sims c d -> sims (a ++ c) (b ++ d).
Proof. induction 1; cbn; auto. constructor; auto. Qed.
Lemma sims_rev a b : sims a b -> sims (rev a) (rev b).
Proof. induction 1; cbn; [constructor |]. apply sims_app; auto. constructor; [auto | constructor]. Qed.
Lemma sims_length a b : sims a b -> List.length a = List.length b.
Proof. induction 1; cbn; auto. Qed.

(* outcomes, the model's step budget included *)
Definition osim {A} (R : A -> A -> Prop) (o p : outcome A) : Prop :=
  match o, p with
  | Ok a, Ok b => R a b
  | Abort, Abort => True
  | UB k, UB k' => k = k'
  | Exit n, Exit m => n = m
  | NoFuel, NoFuel => True
  | _, _ => False
  end.
Lemma osim_bind {A B} (R : A -> A -> Prop) (Q : B -> B -> Prop) o p f g :
  osim R o p -> (forall a b, R a b -> osim Q (f a) (g b)) -> osim Q (obind o f) (obind p g).
Proof. intros H K. destruct o, p; cbn in *; try contradiction; auto. Qed.
Lemma osim_map {A B} (R : A -> A -> Prop) (Q : B -> B -> Prop) o p f g :
  osim R o p -> (forall a b, R a b -> Q (f a) (g b)) -> osim Q (omap f o) (omap g p).
Proof. intros H K. unfold omap. eapply osim_bind; [exact H |]. intros a b X. cbn. auto. Qed.

(* ---- zo ---- *)
(* after zo: the insides of lo'u .. le'u may still differ *)
Inductive inner : list node -> list node -> Prop :=
| in_nil : inner [] []
| in_word x y l l' : sim x y -> ~ cmavo_of T_LOhU x -> inner l l' -> inner (x :: l) (y :: l')
| in_lohu x q q' e l l' : cmavo_of T_LOhU x -> Forall (fun y => ~ cmavo_of T_LEhU y) q -> Forall (fun y => ~ cmavo_of T_LEhU y) q' ->
    Forall showable q -> Forall showable q' -> q <> [] -> q' <> [] -> cmavo_of T_LEhU e -> inner l l' ->
    inner (x :: q ++ e :: l) (x :: q' ++ e :: l').

Lemma zo_body q : body q -> exists q1, Forall (fun y => ~ cmavo_of T_LEhU y) q1 /\ Forall showable q1 /\ (q <> [] -> q1 <> []) /\
  forall r, handle_zo (q ++ r) = omap (app q1) (handle_zo r).
Proof.
  induction 1 as [|x l Z L S B (q1 & F & G & N & E)|x y t l Z R B (q1 & F & G & N & E)].
  - exists []. repeat split; auto. intro r. cbn. unfold omap, obind. destruct (handle_zo r); reflexivity.
  - exists (x :: q1). repeat split; [constructor; auto | constructor; auto | discriminate |]. intro r. cbn [app handle_zo].
    apply is_zo_false in Z. rewrite Z, E. unfold omap, obind. destruct (handle_zo r); reflexivity.
  - exists (set_dat (N_ZO t) x :: q1). repeat split; [constructor; auto | constructor; auto | discriminate |].
    + intros (c & f & D). destruct x; cbn in D; discriminate D.
    + unfold showable. rewrite dat_set_dat. exact I.
    + intro r. cbn [app handle_zo]. apply is_zo_iff in Z. apply reads_iff in R. rewrite Z, R, E.
      unfold omap, obind. destruct (handle_zo r); reflexivity.
Qed.
Lemma zo_inner l l' : quotes_differ l l' -> osim inner (handle_zo l) (handle_zo l').
Proof.
  induction 1 as [|x l l' Z L Q IH|x y y' t t' l l' Z R R' Q IH|x q q' e l l' Z L B B' N N' Ze Le Q IH].
  - constructor.
  - cbn [handle_zo]. apply is_zo_false in Z. rewrite Z. eapply osim_map; [exact IH |]. intros. constructor; auto using sim_refl.
  - cbn [handle_zo]. apply is_zo_iff in Z. apply reads_iff in R. apply reads_iff in R'. rewrite Z, R, R'.
    eapply osim_map; [exact IH |]. intros. constructor; auto.
    + apply sim_set_dat; [constructor | apply sim_refl].
    + intros (c & f & D). destruct x; cbn in D; discriminate D.
  - cbn [handle_zo]. apply is_zo_false in Z. rewrite Z.
    destruct (zo_body q B) as (q1 & F & G & M & E). destruct (zo_body q' B') as (q1' & F' & G' & M' & E'). rewrite E, E'.
    cbn [handle_zo]. apply is_zo_false in Ze. rewrite Ze.
    destruct (handle_zo l), (handle_zo l'); cbn in *; try contradiction; auto. apply in_lohu; auto.
Qed.

(* ---- lo'u ---- *)
Lemma split_lehu_at q e l : Forall (fun y => ~ cmavo_of T_LEhU y) q -> cmavo_of T_LEhU e -> split_lehu (q ++ e :: l) = Some (q, l).
Proof. intros F L. apply split_lehu_some. eauto. Qed.
Lemma lohu_sims l l' : inner l l' -> forall f f', List.length l < f -> List.length l' < f' ->
  osim sims (lohu_loop f l) (lohu_loop f' l').
Proof.
  induction 1 as [|x y l l' S L Q IH|x q q' e l l' L F F' G G' N N' Le Q IH]; intros f f' A A'.
  - destruct f; [lia |]. destruct f'; [lia |]. constructor.
  - destruct f as [|f]; [lia |]. destruct f' as [|f']; [lia |]. cbn [lohu_loop].
    rewrite <- (sim_cmtest x y T_LOhU S). apply cmtest_false in L. rewrite L. cbn in A, A'.
    eapply osim_map; [apply IH; lia |]. intros. constructor; auto.
  - destruct f as [|f]; [lia |]. destruct f' as [|f']; [lia |]. cbn [lohu_loop]. apply cmtest_iff in L. rewrite L.
    rewrite !split_lehu_at by assumption. cbn in A, A'. rewrite app_length in A, A'. cbn in A, A'.
    destruct q as [|q0 q]; [congruence |]. destruct q' as [|q0' q']; [congruence |].
    rewrite !build_string_ok by assumption. cbn [obind]. cbn in A, A'.
    eapply osim_map; [apply IH; lia |]. intros. constructor; auto. apply sim_set_dat; [constructor | apply sim_refl].
Qed.

(* ---- erasure ---- *)
Lemma eat_sims n : forall l m, sims l m -> fst (eat_si n l) = fst (eat_si n m) /\ sims (snd (eat_si n l)) (snd (eat_si n m)).
Proof.
  induction n as [|n IH]; intros l m H; cbn; [auto |]. destruct H as [|x y l m S H]; [split; [reflexivity | constructor] |].
  rewrite <- (sim_cmtest x y T_SI S). destruct (cmtest x T_SI); [apply IH, H |]. split; [reflexivity | constructor; auto].
Qed.
Lemma si_sims f : forall a a' b b' w, sims a a' -> sims b b' ->
  osim (fun r s => sims (fst r) (fst s) /\ snd r = snd s) (si_loop f a b w) (si_loop f a' b' w).
Proof.
  induction f as [|f IH]; intros a a' b b' w A B; cbn [si_loop]; [exact I |].
  destruct B as [|x y b b' S B]; [cbn; split; [apply sims_rev, A | reflexivity] |].
  rewrite <- (sim_cmtest x y T_SI S). destruct (cmtest x T_SI); [| apply IH; [constructor; auto | auto]].
  destruct A as [|u v a a' V A].
  - destruct (sim_pos x y S) as (-> & ->). apply IH; [constructor; [auto | constructor] | auto].
  - rewrite <- (sim_require u v V). destruct (si_require u) as [n|]; [| exact I].
    pose proof (eat_sims (n - 1) b b' B) as (E & T). destruct (eat_si (n - 1) b) as (k & z). destruct (eat_si (n - 1) b') as (k' & z').
    cbn in E, T. subst k'. destruct k; apply IH; auto. constructor; auto. apply sim_set_dat; [constructor | exact V].
Qed.
Lemma sa_back_sims a b l m : sim a b -> sims l m -> sims (sa_back a l) (sa_back b m).
Proof.
  intros S H. induction H as [|x y l m V H IH]; cbn; [constructor |]. rewrite (sim_sa x y a b V S). destruct (sa_match y b); auto.
Qed.
Lemma sa_sims b b' : sims b b' -> forall a a', sims a a' -> sims (sa_loop a b) (sa_loop a' b').
Proof.
  induction 1 as [|x y b b' S B IH]; intros a a' A; cbn [sa_loop]; [apply sims_rev, A |].
  destruct B as [|u v b b' V B]; [cbn [rev]; apply sims_app; [apply sims_rev, A | constructor; [auto | constructor]] |].
  rewrite <- (sim_cmtest x y T_SA S). destruct (cmtest x T_SA); apply IH; [apply sa_back_sims; auto | constructor; auto].
Qed.
Lemma su_back_sims l m : sims l m -> sims (su_back l) (su_back m).
Proof. induction 1 as [|x y l m V H IH]; cbn; [constructor |]. rewrite (sim_su x y V). destruct (su_boundary y); auto. Qed.
Lemma su_sims n : forall b b', List.length b < n -> sims b b' -> forall a a', sims a a' -> sims (su_loop a b) (su_loop a' b').
Proof.
  induction n as [|n IH]; intros b b' L B a a' A; [lia |].
  destruct B as [|x y b b' S B]; cbn [su_loop]; [apply sims_rev, A |]. cbn in L.
  rewrite <- (sim_cmtest x y T_SU S). destruct (cmtest x T_SU); [| apply IH; [lia | auto | constructor; auto]].
  destruct B as [|u v b b' V B]; [apply IH; [lia | constructor | apply su_back_sims, A] |]. cbn in L.
  rewrite <- (sim_cmtest u v T_SU V). destruct (cmtest u T_SU).
  - apply IH; [lia | auto | constructor].
  - apply IH; [cbn; lia | constructor; auto | apply su_back_sims, A].
Qed.

(* ---- zei ---- *)
Lemma zei_operands_sims n : forall l m, List.length l < n -> sims l m ->
  match zei_operands l, zei_operands m with
  | None, None => True
  | Some (o, r), Some (o', r') => sims o o' /\ sims r r'
  | _, _ => False
  end.
Proof.
  induction n as [|n IH]; intros l m L H; [lia |]. destruct H as [|x y l m S H]; cbn [zei_operands]; [exact I |].
  destruct H as [|u v l m V H]; [split; [constructor; [auto | constructor] | constructor] |]. cbn in L.
  unfold is_zei. rewrite <- (sim_cmtest u v T_ZEI V). destruct (cmtest u T_ZEI).
  - specialize (IH l m ltac:(lia) H). destruct (zei_operands l) as [(o & r)|], (zei_operands m) as [(o' & r')|]; try contradiction; auto.
    destruct IH. split; [constructor |]; auto.
  - split; constructor; auto. constructor.
Qed.
Lemma showable_dec x : showable x \/ ~ showable x.
Proof. unfold showable. destruct (dat x); auto. Qed.
Lemma all_showable l : Forall showable l \/ ~ Forall showable l.
Proof.
  induction l as [|x l [F|F]]; [left; constructor | |].
  - destruct (showable_dec x); [left; auto | right; intro H'; inversion H'; auto].
  - right. intro H'. inversion H'; auto.
Qed.
Lemma sims_showable l m : sims l m -> Forall showable l <-> Forall showable m.
Proof.
  induction 1 as [|x y l m S H IH]; [split; constructor |]. pose proof (sim_showable x y S).
  split; intro F; inversion F; constructor; tauto.
Qed.
Lemma strings_of_not l : ~ Forall showable l -> strings_of l = Abort.
Proof.
  induction l as [|x l IH]; intro N; [destruct N; constructor |]. cbn [strings_of]. destruct (showable_dec x) as [Sx|Sx].
  - unfold build_string_from_node. rewrite build_string_ok; [| constructor; [auto | constructor] | discriminate]. cbn [obind].
    rewrite IH; [reflexivity |]. intro F. apply N. constructor; auto.
  - unfold build_string_from_node, build_string_from_nodes. cbn [nodes_len]. destruct (not_showable x Sx) as (-> & _). reflexivity.
Qed.
Lemma zei_bufs cs : cs <> [] ->
  exists p z, join_buf "+" (total_length cs + (List.length cs - 1) + 1) cs = Ok p /\
    join_buf " zei " (total_length cs + (List.length cs - 1) * 5 + 1) cs = Ok z.
Proof.
  intro N. exists (join "+" cs), (join " zei " cs). split; unfold join_buf; rewrite join_length by assumption; cbn [String.length].
  - rewrite (proj2 (Nat.leb_le _ _)); [reflexivity | lia].
  - rewrite (proj2 (Nat.leb_le _ _)); [reflexivity | lia].
Qed.
Lemma zei_sims f : forall fi a a' b b' bad, sims a a' -> sims b b' ->
  osim (fun r s => sims (fst r) (fst s) /\ snd r = snd s) (zei_loop f fi a b bad) (zei_loop f fi a' b' bad).
Proof.
  induction f as [|f IH]; intros fi a a' b b' bad A B; cbn [zei_loop]; [exact I |].
  destruct B as [|x y b b' S B]; [cbn; split; [apply sims_rev, A | reflexivity] |].
  unfold is_zei. rewrite <- (sim_cmtest x y T_ZEI S). destruct (cmtest x T_ZEI); [| apply IH; [constructor; auto | auto]].
  destruct fi; [apply IH; [constructor; auto | auto] |].
  pose proof (zei_operands_sims (Datatypes.S (List.length b)) b b' ltac:(lia) B) as Z.
  destruct (zei_operands b) as [(o & r)|], (zei_operands b') as [(o' & r')|]; try contradiction;
    [| apply IH; [constructor; auto | auto]].
  destruct Z as (Zo & Zr). destruct A as [|u v a a' V A]; [reflexivity |].
  assert (Sc : sims (u :: o) (v :: o')) by (constructor; auto).
  destruct (all_showable (u :: o)) as [F|F].
  - pose proof F as F'. apply (sims_showable _ _ Sc) in F'. rewrite !strings_of_ok by assumption. cbn [obind].
    destruct (zei_bufs (map shown (u :: o))) as (p & z & P & Q); [discriminate |]. rewrite map_length in P, Q. rewrite P, Q. cbn [obind].
    destruct (zei_bufs (map shown (v :: o'))) as (p' & z' & P' & Q'); [discriminate |]. rewrite map_length in P', Q'. rewrite P', Q'. cbn [obind].
    apply IH; auto. constructor; auto. apply sim_set_dat; [constructor; exact Sc | exact S].
  - assert (F' : ~ Forall showable (v :: o')) by (intro X; apply F, (sims_showable _ _ Sc), X).
    rewrite !strings_of_not by assumption. exact I.
Qed.

(* ---- ba'e, bu ---- *)
Lemma bahe_sims b b' : sims b b' -> forall a a', simo a a' -> sims (bahe_loop a b) (bahe_loop a' b').
Proof.
  induction 1 as [|x0 y0 b b' S B IH]; intros a a' A; cbn [bahe_loop]; [constructor |].
  set (x := match a with Some z => set_bahe (Some z) x0 | None => x0 end).
  set (y := match a' with Some z => set_bahe (Some z) y0 | None => y0 end).
  assert (V : sim x y). { subst x y. destruct A; [exact S |]. apply sim_set_bahe; [constructor; auto | exact S]. }
  rewrite <- (sim_cmtest x y T_BAhE V). destruct (cmtest x T_BAhE); [| constructor; [exact V | apply IH; constructor]].
  destruct B as [|u v b b' W B]; [constructor; [exact V | constructor] |].
  rewrite <- (sim_cmtest u v T_FAhO W). destruct (cmtest u T_FAhO); [constructor; [exact V | apply IH; constructor] |].
  apply IH. constructor. exact V.
Qed.
Lemma bu_sims b b' : sims b b' -> forall a a', sims a a' -> osim sims (bu_loop a b) (bu_loop a' b').
Proof.
  induction 1 as [|x y b b' S B IH]; intros a a' A; cbn [bu_loop]; [apply sims_rev, A |].
  rewrite <- (sim_cmtest x y T_BU S). destruct (cmtest x T_BU); [| apply IH; constructor; auto].
  destruct A as [|u v a a' V A]; [exact I |].
  assert (D : (exists t, dat u = N_MARKER t /\ dat v = N_MARKER t) \/ ((forall t, dat u <> N_MARKER t) /\ forall t, dat v <> N_MARKER t)).
  { apply sim_dat in V. destruct V as [d| | | |]; [| right; split; discriminate ..].
    destruct d; try (right; split; discriminate). left. eauto. }
  destruct D as [(t & D & D')|(D & D')].
  - unfold bu_word. rewrite D, D'. exact I.
  - rewrite (bu_word_ok u D), (bu_word_ok v D'). cbn [obind]. apply IH. constructor; auto. apply sim_set_dat; [constructor | exact S].
Qed.

(* ---- indicators ---- *)
Lemma pair_sims f : forall l m, sims l m -> osim sims (pair_off f l) (pair_off f m).
Proof.
  induction f as [|f IH]; intros l m H; cbn [pair_off]; [exact I |]. destruct H as [|x y l m S H]; [constructor |].
  assert (K : forall a b l m, sim a b -> sims l m -> osim sims (omap (cons a) (pair_off f l)) (omap (cons b) (pair_off f m))).
  { intros a b l' m' V H'. eapply osim_map; [apply IH, H' |]. intros. constructor; auto. }
  rewrite <- (sim_ind x y S). destruct (is_indicator_cmavo x); [| apply K; auto].
  assert (X : exists x1 z y1 w,
    match l with y0 :: y' => if cmtest y0 T_NAI then (set_neg true x, y') else (x, l) | [] => (x, l) end = (x1, z) /\
    match m with y0 :: y' => if cmtest y0 T_NAI then (set_neg true y, y') else (y, m) | [] => (y, m) end = (y1, w) /\
    sim x1 y1 /\ sims z w).
  { destruct H as [|u v l m V H]; [do 4 eexists; repeat split; auto; constructor |].
    rewrite <- (sim_cmtest u v T_NAI V). destruct (cmtest u T_NAI); do 4 eexists; repeat split; auto using sim_set_neg. constructor; auto. }
  destruct X as (x1 & z & y1 & w & -> & -> & V & Z).
  destruct Z as [|z0 w0 z w Z0 Z]; [apply K; auto; constructor |].
  rewrite <- (sim_cmtest z0 w0 T_CAI Z0). destruct (cmtest z0 T_CAI); [| apply K; [auto | constructor; auto]].
  rewrite <- (sim_cai_of z0 w0 Z0). destruct (cai_of z0) as [k|]; [| exact I].
  destruct Z as [|z1 w1 z w Z1 Z]; [apply K; [apply sim_set_cai, V | constructor] |].
  rewrite <- (sim_cmtest z1 w1 T_NAI Z1). destruct (cmtest z1 T_NAI); apply K; auto using sim_set_cai. constructor; auto.
Qed.
Lemma span_sims l m : sims l m -> sims (fst (span_indicators l)) (fst (span_indicators m)) /\ sims (snd (span_indicators l)) (snd (span_indicators m)).
Proof.
  induction 1 as [|x y l m S H (IH1 & IH2)]; cbn; [split; constructor |]. rewrite <- (sim_ind x y S).
  destruct (is_indicator_cmavo x); [| split; [constructor | constructor; auto]].
  destruct (span_indicators l), (span_indicators m); cbn in *. split; [constructor |]; auto.
Qed.
Lemma ind_sims f : forall st a a' b b', sims a a' -> sims b b' -> osim sims (ind_loop f st a b) (ind_loop f st a' b').
Proof.
  induction f as [|f IH]; intros st a a' b b' A B; cbn [ind_loop]; [exact I |].
  pose proof B as B0. destruct B as [|x y b b' S B]; [apply sims_rev, A |].
  unfold is_fuhe. rewrite <- (sim_ind x y S), <- (sim_cmtest x y T_FUhE S).
  assert (C : sims (x :: a) (y :: a')) by (constructor; auto).
  destruct st; try (apply IH; auto; fail). destruct (is_indicator_cmavo x) eqn:E; [| apply IH; auto].
  destruct A as [|u v a a' V A]; [reflexivity |].
  pose proof (span_sims _ _ B0) as (P & Q). destruct (span_indicators (x :: b)) as (i & r). destruct (span_indicators (y :: b')) as (i' & r').
  apply IH; [constructor; [apply sim_set_ui; auto | auto] | auto].
Qed.

Lemma group_sims l l' : quotes_differ l l' -> osim group_alike (group_tokens l) (group_tokens l').
Proof.
  intro Q. unfold group_tokens. eapply osim_bind; [apply zo_inner, Q |]. intros t1 t1' H1.
  eapply osim_bind; [apply lohu_sims; [exact H1 | apply Nat.lt_succ_diag_r | apply Nat.lt_succ_diag_r] |]. intros t2 t2' H2.
  eapply osim_bind with (R := fun r s => sims (fst r) (fst s) /\ snd r = snd s).
  { unfold do_erasures. eapply osim_bind; [unfold handle_si; rewrite (sims_length _ _ H2); apply si_sims; [constructor | exact H2] |].
    intros (t3 & w) (t3' & w') (H3 & E). cbn in H3, E. subst w'. cbn. split; [| reflexivity].
    eapply su_sims; [apply Nat.lt_succ_diag_r | | constructor]. apply sa_sims; [exact H3 | constructor]. }
  intros (t3 & w) (t3' & w') (H3 & E). cbn in H3, E. subst w'.
  eapply osim_bind; [unfold handle_zei; rewrite (sims_length _ _ H3); apply zei_sims; [constructor | exact H3] |].
  intros (t4 & b) (t4' & b') (H4 & E). cbn in H4, E. subst b'.
  eapply osim_bind; [apply bu_sims; [apply bahe_sims; [exact H4 | constructor] | constructor] |]. intros t5 t5' H5.
  eapply osim_bind with (R := sims).
  { unfold handle_indicators, pair_off_indicator_suffixes. eapply osim_bind; [rewrite (sims_length _ _ H5); apply pair_sims, H5 |].
    intros t6 t6' H6. rewrite (sims_length _ _ H6). apply ind_sims; [constructor | exact H6]. }
  intros t6 t6' H6. cbn. split; [exact H6 | auto].
Qed.

(* the step budgets suffice *)
Lemma nf_map {A B} (f : A -> B) o : o <> NoFuel -> omap f o <> NoFuel.
Proof. destruct o; cbn; congruence. Qed.
Lemma nf_bind {A B} (o : outcome A) (f : A -> outcome B) : o <> NoFuel -> (forall a, f a <> NoFuel) -> obind o f <> NoFuel.
Proof. destruct o; cbn; auto; congruence. Qed.
Lemma nf_zo n : forall l, List.length l < n -> handle_zo l <> NoFuel.
Proof.
  induction n as [|n IH]; intros l L; [lia |]. destruct l as [|x l]; cbn [handle_zo]; [discriminate |]. cbn in L.
  destruct (is_zo x); [| apply nf_map, IH; lia]. destruct l as [|y l]; [discriminate |]. cbn in L.
  destruct (zo_text y); [apply nf_map, IH; lia | discriminate].
Qed.
Lemma nf_string l : build_string_from_nodes l <> NoFuel.
Proof. unfold build_string_from_nodes. destruct (nodes_len l); [| discriminate]. destruct (cat_nodes l); [| discriminate]. destruct (Nat.leb _ _); discriminate. Qed.
Lemma nf_strings l : strings_of l <> NoFuel.
Proof. induction l as [|x l IH]; [discriminate |]. cbn. apply nf_bind; [apply nf_string |]. intro a. apply nf_bind; [exact IH | discriminate]. Qed.
Lemma nf_lohu f : forall l, List.length l < f -> lohu_loop f l <> NoFuel.
Proof.
  induction f as [|f IH]; intros l L; [lia |]. cbn [lohu_loop]. destruct l as [|x l]; [discriminate |]. cbn in L.
  destruct (cmtest x T_LOhU); [| apply nf_map, IH; lia].
  destruct (split_lehu l) as [([|q0 q] & r)|] eqn:Sp; try discriminate. apply nf_bind; [apply nf_string |].
  intro s. apply nf_map, IH. apply split_lehu_some in Sp. destruct Sp as (e & -> & _). rewrite app_length in L. cbn in L. lia.
Qed.
Lemma nf_operands z o r : zei_operands z = Some (o, r) -> List.length r < List.length z.
Proof.
  assert (forall n z o r, List.length z < n -> zei_operands z = Some (o, r) -> List.length r < List.length z) as X.
  { induction n as [|n IH]; intros z' o' r' L E; [lia |]. destruct z' as [|x z']; cbn [zei_operands] in E; [discriminate |].
    destruct z' as [|u z']; [injection E as <- <-; cbn; lia |]. cbn in L. destruct (is_zei u).
    - destruct (zei_operands z') as [(a & b)|] eqn:Z; [| discriminate]. injection E as <- <-. apply IH in Z; [cbn; lia | lia].
    - injection E as <- <-. cbn. lia. }
  apply (X (S (List.length z))). lia.
Qed.
Lemma nf_zei f : forall fi a b bad, List.length b < f -> zei_loop f fi a b bad <> NoFuel.
Proof.
  induction f as [|f IH]; intros fi a b bad L; [lia |]. cbn [zei_loop]. destruct b as [|x b]; [discriminate |]. cbn in L.
  destruct (is_zei x); [| apply IH; lia]. destruct fi; [apply IH; lia |].
  destruct (zei_operands b) as [(o & r)|] eqn:Z; [| apply IH; lia]. destruct a as [|u a]; [discriminate |].
  apply nf_bind; [apply nf_strings |]. intro cs.
  apply nf_bind; [unfold join_buf; destruct (Nat.leb _ _); discriminate |]. intro p.
  apply nf_bind; [unfold join_buf; destruct (Nat.leb _ _); discriminate |]. intro q.
  apply IH. apply nf_operands in Z. lia.
Qed.
Lemma nf_bu b : forall a, bu_loop a b <> NoFuel.
Proof.
  induction b as [|x b IH]; intro a; cbn [bu_loop]; [discriminate |]. destruct (cmtest x T_BU); [| apply IH].
  destruct a as [|y a]; [discriminate |]. apply nf_bind; [| intro w; apply IH].
  unfold bu_word. destruct (dat y); try discriminate; try (destruct (Nat.leb _ _); discriminate). apply nf_string.
Qed.
Lemma nf_pair f : forall l, List.length l < f -> pair_off f l <> NoFuel.
Proof.
  induction f as [|f IH]; intros l L; [lia |]. cbn [pair_off]. destruct l as [|x l]; [discriminate |]. cbn in L.
  destruct (is_indicator_cmavo x); [| apply nf_map, IH; lia].
  assert (X : exists x1 z, match l with y0 :: y' => if cmtest y0 T_NAI then (set_neg true x, y') else (x, l) | [] => (x, l) end = (x1, z)
    /\ List.length z <= List.length l).
  { destruct l as [|u l]; [eauto |]. destruct (cmtest u T_NAI); do 2 eexists; (split; [reflexivity |]); cbn; lia. }
  destruct X as (x1 & z & -> & LZ). destruct z as [|z0 w]; [apply nf_map, IH; cbn; lia |]. cbn in LZ.
  destruct (cmtest z0 T_CAI); [| apply nf_map, IH; cbn; lia]. destruct (cai_of z0); [| discriminate].
  destruct w as [|w0 v]; [apply nf_map, IH; cbn; lia |]. cbn in LZ. destruct (cmtest w0 T_NAI); apply nf_map, IH; cbn; lia.
Qed.
Lemma span_len l : List.length (snd (span_indicators l)) <= List.length l.
Proof.
  induction l as [|x l IH]; cbn; [lia |]. destruct (is_indicator_cmavo x); [| cbn; lia].
  destruct (span_indicators l). cbn in *. lia.
Qed.
Lemma nf_ind f : forall st a b, List.length b < f -> ind_loop f st a b <> NoFuel.
Proof.
  induction f as [|f IH]; intros st a b L; [lia |]. cbn [ind_loop]. destruct b as [|x b]; [discriminate |].
  pose proof L as L'. cbn in L'. destruct st; try (apply IH; lia).
  destruct (is_indicator_cmavo x) eqn:E; [| apply IH; lia]. destruct a as [|t a]; [discriminate |].
  cbn [span_indicators]. rewrite E. pose proof (span_len b). destruct (span_indicators b) as (i & r). cbn in *. apply IH. lia.
Qed.
Lemma nf_group l : group_tokens l <> NoFuel.
Proof.
  unfold group_tokens. apply nf_bind; [eapply nf_zo; apply Nat.lt_succ_diag_r |]. intro t1.
  apply nf_bind; [apply nf_lohu, Nat.lt_succ_diag_r |]. intro t2.
  apply nf_bind. { unfold do_erasures. rewrite handle_si_spec. destruct (si_spec t2) as [(s & w)|]; discriminate. }
  intros (t3 & w). apply nf_bind; [apply nf_zei, Nat.lt_succ_diag_r |]. intros (t4 & b).
  apply nf_bind; [apply nf_bu |]. intro t5. apply nf_bind; [| discriminate].
  unfold handle_indicators. apply nf_bind; [apply nf_pair, Nat.lt_succ_diag_r |]. intro t6. apply nf_ind, Nat.lt_succ_diag_r.
Qed.

Lemma quoted_inert l l' : quotes_differ l l' -> same_outcome group_alike (group_tokens l) (group_tokens l').
Proof.
  intro Q. pose proof (group_sims l l' Q) as H. pose proof (nf_group l) as N. destruct (group_tokens l), (group_tokens l'); auto. destruct N; reflexivity.
Qed.

(* ---- the places of the emphasis words ---- *)
Lemma hang_last e es a : hang e (es ++ [a]) = set_bahe (Some (hang e es)) a.
Proof. revert e. induction es as [|x es IH]; intro e; cbn; [reflexivity | apply IH]. Qed.
Lemma bahe_run es : forall e x l, cmavo_of T_BAhE e -> Forall (cmavo_of T_BAhE) es -> ~ cmavo_of T_FAhO x ->
  bahe_loop (Some e) (es ++ x :: l) = bahe_loop (Some (hang e es)) (x :: l).
Proof.
  induction es as [|a es IH]; intros e x l E F X; [reflexivity |]. inversion F as [|? ? Fa Fs]; subst.
  cbn [app hang]. rewrite <- IH; auto.
  - cbn [bahe_loop]. rewrite cmtest_set_bahe. rewrite (cmtest_t a T_BAhE Fa).
    assert (Y : exists y r, es ++ x :: l = y :: r /\ cmtest y T_FAhO = false).
    { destruct es as [|b es]; [exists x, l; split; [reflexivity | apply cmtest_false; exact X] |].
      inversion Fs; subst. exists b, (es ++ x :: l). split; [reflexivity |]. eapply cmtest_other; [eassumption | discriminate]. }
    destruct Y as (y & r & -> & ->). reflexivity.
  - destruct a as [d ln c b g k u]. destruct Fa as (co & fr & Fa). exists co, fr. cbn in *. exact Fa.
Qed.
Lemma bahe_step e l : cmavo_of T_BAhE e -> forall y r, l = y :: r -> cmtest y T_FAhO = false ->
  bahe_loop None (e :: l) = bahe_loop (Some e) l.
Proof. intros E y r -> Y. cbn [bahe_loop]. rewrite (cmtest_t e T_BAhE E), Y. reflexivity. Qed.
Lemma bahe_ok l r : bahe_spec l r -> handle_bahe l = r.
Proof.
  unfold handle_bahe. induction 1 as [|x l r X H IH|e es x l r F X Y H IH|e es l r F L H IH].
  - reflexivity.
  - cbn [bahe_loop]. rewrite (cmtest_f x T_BAhE X), IH. reflexivity.
  - inversion F as [|? ? Fe Fs]; subst.
    assert (Z : exists y r', es ++ x :: l = y :: r' /\ cmtest y T_FAhO = false).
    { destruct es as [|b es]; [exists x, l; split; [reflexivity | apply cmtest_false; exact Y] |].
      inversion Fs; subst. exists b, (es ++ x :: l). split; [reflexivity |]. eapply cmtest_other; [eassumption | discriminate]. }
    destruct Z as (y & r' & Z & Zf). rewrite (bahe_step e _ Fe y r' Z Zf), bahe_run by assumption.
    cbn [bahe_loop]. rewrite cmtest_set_bahe, (cmtest_f x T_BAhE X). reflexivity.
  - inversion F as [|? ? Fe Fs]; subst.
    assert (End : forall att x, cmtest x T_BAhE = true -> bahe_loop att (x :: l) =
      match att with Some a => set_bahe (Some a) x | None => x end :: bahe_loop None l).
    { intros att x Cx. cbn [bahe_loop]. destruct att; rewrite ?cmtest_set_bahe, Cx; (destruct l as [|y l]; [reflexivity |]; cbn in L;
      rewrite (cmtest_t y T_FAhO L); reflexivity). }
    destruct (@exists_last _ (e :: es)) as (fr & z & Ez); [discriminate |].
    assert (Fz : cmavo_of T_BAhE z /\ Forall (cmavo_of T_BAhE) fr).
    { rewrite Ez in F. apply Forall_app in F. destruct F as (A & B). inversion B; auto. }
    destruct Fz as (Fz & Ff). destruct fr as [|f0 fr].
    + cbn in Ez. injection Ez as -> ->. cbn [app hang]. rewrite End by (apply cmtest_t; exact Fz). reflexivity.
    + cbn in Ez. injection Ez as <- ->. rewrite <- app_assoc. cbn [app].
      inversion Ff as [|? ? _ Ffr]; subst.
      assert (Zn : ~ cmavo_of T_FAhO z). { intro Q. pose proof (cmavo_of_fun _ _ _ Fz Q). discriminate. }
      assert (Z : exists y r', fr ++ z :: l = y :: r' /\ cmtest y T_FAhO = false).
      { destruct fr as [|b fr]; [exists z, l; split; [reflexivity | apply cmtest_false; exact Zn] |].
        inversion Ffr; subst. exists b, (fr ++ z :: l). split; [reflexivity |]. eapply cmtest_other; [eassumption | discriminate]. }
      destruct Z as (y & r' & Z & Zf). rewrite (bahe_step e _ Fe y r' Z Zf), bahe_run by assumption.
      rewrite End by (apply cmtest_t; exact Fz). rewrite hang_last. reflexivity.
Qed.
Lemma bahe_span l : exists es r, l = es ++ r /\ Forall (cmavo_of T_BAhE) es /\ head_is (fun y => ~ cmavo_of T_BAhE y) r.
Proof.
  induction l as [|x l (es & r & -> & F & H)]; [exists [], []; repeat split; constructor |].
  destruct (cmtest x T_BAhE) eqn:C.
  - apply cmtest_iff in C. exists (x :: es), r. repeat split; auto.
  - apply cmtest_false in C. exists [], (x :: es ++ r). repeat split; auto.
Qed.
Lemma bahe_total n : forall l, List.length l < n -> exists r, bahe_spec l r.
Proof.
  induction n as [|n IH]; intros l L; [lia |]. destruct (bahe_span l) as (es & r & -> & F & H). rewrite app_length in L.
  destruct es as [|e es].
  - destruct r as [|x r]; [exists []; constructor |]. cbn in L, H. destruct (IH r ltac:(lia)) as (s & S). exists (x :: s). constructor; auto.
  - cbn in L. destruct r as [|x r].
    + exists [hang e es]. apply (bas_stay e es [] []); [exact F | exact I | constructor].
    + cbn in L, H. destruct (cmtest x T_FAhO) eqn:C.
      * apply cmtest_iff in C. destruct (IH (x :: r) ltac:(cbn; lia)) as (s & S). exists (hang e es :: s). apply bas_stay; auto.
      * apply cmtest_false in C. destruct (IH r ltac:(lia)) as (s & S). exists (set_bahe (Some (hang e es)) x :: s). apply bas_mark; auto.
Qed.
Lemma bahe_iff l r : handle_bahe l = r <-> bahe_spec l r.
Proof.
  split; [| apply bahe_ok]. intros <-. destruct (bahe_total (S (List.length l)) l ltac:(lia)) as (s & S).
  rewrite (bahe_ok _ _ S). exact S.
Qed.
