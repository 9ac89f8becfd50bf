From Coq Require Import String Ascii List NArith ZArith Bool Arith Sorted Permutation Lia.
From Verif Require Import Base DictModel DictSpec.
Import ListNotations.
Open Scope string_scope.
Open Scope list_scope.

(* ---------- strcmp ---------- *)
Lemma N_of_ascii_inj a b : N_of_ascii a = N_of_ascii b -> a = b.
Proof. intro E. rewrite <- (ascii_N_embedding a), <- (ascii_N_embedding b). now rewrite E. Qed.

Lemma strcmp_eq a : forall b, strcmp a b = Eq <-> a = b.
Proof.
  induction a as [|x a IH]; intros [|y b]; cbn; try (split; discriminate || reflexivity).
  destruct (N.compare_spec (N_of_ascii x) (N_of_ascii y)) as [E|E|E].
  - apply N_of_ascii_inj in E. subst. rewrite IH. split; [intros -> | intro H; injection H as ->]; reflexivity.
  - split; [discriminate |]. intro H. injection H as -> ->. lia.
  - split; [discriminate |]. intro H. injection H as -> ->. lia.
Qed.
Lemma strcmp_anti a : forall b, strcmp a b = CompOpp (strcmp b a).
Proof.
  induction a as [|x a IH]; intros [|y b]; cbn; try reflexivity.
  rewrite N.compare_antisym. destruct (N.compare (N_of_ascii y) (N_of_ascii x)); cbn; auto.
Qed.
Lemma strcmp_before a : forall b, strcmp a b = Lt <-> before a b.
Proof.
  induction a as [|x a IH]; intros [|y b]; cbn.
  - split; [discriminate | inversion 1].
  - split; [intros _; constructor | reflexivity].
  - split; [discriminate | inversion 1].
  - destruct (N.compare_spec (N_of_ascii x) (N_of_ascii y)) as [E|E|E].
    + apply N_of_ascii_inj in E. subst. rewrite IH. split; [intro; constructor; assumption |].
      inversion 1; subst; [lia | assumption].
    + split; [intros _; apply be_head; exact E | reflexivity].
    + split; [discriminate |]. inversion 1; subst; lia.
Qed.
Lemma before_trans a b : before a b -> forall c, before b c -> before a c.
Proof.
  induction 1 as [y s|x y s t L|x s t H IH]; intros c B; inversion B; subst;
    first [apply be_nil | apply be_head; lia | apply be_tail; apply IH; assumption].
Qed.
Lemma before_irrefl a : ~ before a a.
Proof. intro H. apply strcmp_before in H. rewrite (proj2 (strcmp_eq a a) eq_refl) in H. discriminate. Qed.

(* ---------- sorting ---------- *)
Definition lt_t (a b : trans) : Prop := sort_comparison a b = Lt.
Lemma lt_t_spec a b : lt_t a b <-> before (key a) (key b) \/ (key a = key b /\ ord a < ord b).
Proof.
  unfold lt_t, sort_comparison. destruct (strcmp (key a) (key b)) eqn:E.
  - apply strcmp_eq in E. rewrite Nat.compare_lt_iff. split; [intro; right; auto |].
    intros [H|(_ & H)]; [rewrite E in H; exfalso; exact (before_irrefl _ H) | exact H].
  - apply strcmp_before in E. split; auto.
  - split; [discriminate |]. intros [H|(H & _)]; [apply strcmp_before in H | apply strcmp_eq in H]; congruence.
Qed.
Lemma lt_t_trans a b c : lt_t a b -> lt_t b c -> lt_t a c.
Proof.
  rewrite !lt_t_spec. intros [H|(H & L)] [H'|(H' & L')].
  - left. eapply before_trans; eassumption.
  - left. rewrite <- H'. exact H.
  - left. rewrite H. exact H'.
  - right. split; [congruence | lia].
Qed.
Lemma lt_t_irrefl a : ~ lt_t a a.
Proof. rewrite lt_t_spec. intros [H|(_ & H)]; [exact (before_irrefl _ H) | lia]. Qed.

Lemma insert_perm t l : Permutation (insert t l) (t :: l).
Proof.
  induction l as [|u l IH]; cbn; [auto |]. destruct (sort_comparison t u); try reflexivity.
  rewrite IH. constructor.
Qed.
Lemma sort_perm l : Permutation (sort_array l) l.
Proof. induction l as [|t l IH]; cbn; [auto |]. rewrite insert_perm. auto. Qed.

(* no two transactions have the same number *)
Definition distinct (l : list trans) : Prop := NoDup (map ord l).
Lemma insert_sorted t l : ~ In (ord t) (map ord l) -> StronglySorted lt_t l -> StronglySorted lt_t (insert t l).
Proof.
  induction l as [|u l IH]; cbn [insert map]; intros N S; [constructor; constructor |].
  inversion S as [|? ? S' F]; subst.
  assert (NE : sort_comparison t u <> Eq).
  { unfold sort_comparison. destruct (strcmp (key t) (key u)); try discriminate. rewrite Nat.compare_eq_iff.
    intro E. apply N. left. auto. }
  destruct (sort_comparison t u) eqn:C; [congruence | |].
  - constructor; [exact S |]. constructor; [exact C |]. eapply Forall_impl; [| exact F].
    intros a H. eapply lt_t_trans; [exact C | exact H].
  - constructor; [apply IH; [intro; apply N; right; assumption | exact S'] |].
    rewrite Forall_forall in *. intros x I. apply (Permutation_in _ (insert_perm t l)) in I. destruct I as [<-|I]; [| auto].
    unfold lt_t, sort_comparison in *. rewrite strcmp_anti. destruct (strcmp (key t) (key u)); cbn; try discriminate; auto.
    rewrite Nat.compare_antisym. rewrite C. reflexivity.
Qed.
Lemma sort_sorted l : distinct l -> StronglySorted lt_t (sort_array l).
Proof.
  unfold distinct. induction l as [|t l IH]; cbn; intro D; [constructor |]. inversion D; subst.
  apply insert_sorted; [| auto]. intro I. apply in_map_iff in I. destruct I as (u & E & I).
  apply (Permutation_in _ (sort_perm l)) in I. apply H1. apply in_map_iff. eauto.
Qed.

Lemma sorted_unique {A} (R : A -> A -> Prop) (irr : forall a, ~ R a a) (tr : forall a b c, R a b -> R b c -> R a c) l :
  StronglySorted R l -> forall m, StronglySorted R m -> Permutation l m -> l = m.
Proof.
  induction 1 as [|a l S IH F]; intros m T P.
  - apply Permutation_nil in P. auto.
  - inversion T as [|b m' T' F']; subst.
    + symmetry in P. apply Permutation_nil in P. discriminate.
    + rewrite Forall_forall in F, F'.
      assert (E : a = b).
      { assert (Ia : In a (b :: m')) by (eapply Permutation_in; [exact P | left; reflexivity]).
        assert (Ib : In b (a :: l)) by (eapply Permutation_in; [symmetry; exact P | left; reflexivity]).
        destruct Ia as [|Ia]; [auto |]. destruct Ib as [|Ib]; [auto |].
        exfalso. apply (irr a). eapply tr; [apply F, Ib | apply F', Ia]. }
      subst. f_equal. apply IH; [exact T' |]. eapply Permutation_cons_inv. exact P.
Qed.
(* any other way of sorting gives the same *)
Lemma sort_any l m : distinct l -> Permutation l m ->
  StronglySorted (fun a b => sort_comparison a b <> Gt) m -> m = sort_array l.
Proof.
  intros D P S. symmetry. apply (sorted_unique lt_t lt_t_irrefl lt_t_trans).
  - apply sort_sorted. exact D.
  - assert (D' : distinct m) by (unfold distinct; rewrite <- P; exact D). clear P D l.
    unfold distinct in D'. induction S as [|a m S IH F]; constructor.
    + apply IH. inversion D'; assumption.
    + inversion D' as [|? ? N D2]; subst. rewrite Forall_forall in *. intros b I. specialize (F b I). unfold lt_t.
      destruct (sort_comparison a b) eqn:C; [| reflexivity | congruence]. exfalso. apply N.
      unfold sort_comparison in C. destruct (strcmp (key a) (key b)); try discriminate.
      apply Nat.compare_eq_iff in C. rewrite C. apply in_map. exact I.
  - rewrite sort_perm. exact P.
Qed.

(* the numbering *)
Fixpoint number (o : nat) (l : list action) : list trans :=
  match l with [] => [] | a :: l => trans_of a o :: number (S o) l end.
Lemma array_number l : build_array (add_all l) = number 0 l.
Proof.
  unfold build_array, add_all.
  assert (G : forall s, rev (fst (fold_left (fun s a => add a s) l s)) = rev (fst s) ++ number (snd s) l).
  { induction l as [|a l IH]; intros (p & o); cbn; [now rewrite app_nil_r |].
    rewrite IH. cbn. rewrite <- app_assoc. reflexivity. }
  apply (G ([], 0)).
Qed.
Lemma ord_trans_of a o : ord (trans_of a o) = o. Proof. destruct a; reflexivity. Qed.
Lemma number_ords l : forall o, map ord (number o l) = seq o (List.length l).
Proof. induction l as [|a l IH]; intro o; cbn; [reflexivity |]. rewrite ord_trans_of, IH. reflexivity. Qed.
Lemma number_distinct l : distinct (number 0 l).
Proof. unfold distinct. rewrite number_ords. apply seq_NoDup. Qed.

(* ---------- one key ---------- *)
Definition about (k : string) (t : trans) : bool := String.eqb (key t) k.
Lemma about_sorted k l : distinct l -> StronglySorted (fun a b => ord a < ord b) l ->
  filter (about k) (sort_array l) = filter (about k) l.
Proof.
  intros D S. apply (sorted_unique (fun a b => ord a < ord b)); [intros; lia | intros; lia | | |].
  - pose proof (sort_sorted l D) as T. induction T as [|a m T IH F]; cbn; [constructor |].
    destruct (about k a) eqn:A; [| exact IH]. constructor; [exact IH |].
    rewrite Forall_forall in *. intros b I. apply filter_In in I. destruct I as (I & B).
    specialize (F b I). apply lt_t_spec in F. apply String.eqb_eq in A, B.
    destruct F as [F|(_ & F)]; [| exact F]. rewrite A, B in F. exfalso. exact (before_irrefl _ F).
  - induction S as [|a m S IH F]; cbn; [constructor |]. unfold distinct in D. inversion D; subst.
    destruct (about k a); [| auto]. constructor; [auto |]. rewrite Forall_forall in *. intros b I. apply filter_In in I. apply F. apply I.
  - assert (P : forall l m, Permutation l m -> Permutation (filter (about k) l) (filter (about k) m)).
    { clear. induction 1; cbn; try (destruct (about k x)); try (destruct (about k y)); auto.
      - constructor. - eapply Permutation_trans; eassumption. }
    apply P, sort_perm.
Qed.
Lemma number_increasing l : forall o, StronglySorted (fun a b => ord a < ord b) (number o l).
Proof.
  induction l as [|a l IH]; intro o; cbn; constructor; [apply IH |].
  apply Forall_forall. intros t I. rewrite ord_trans_of.
  assert (J : In (ord t) (map ord (number (S o) l))) by (apply in_map; exact I).
  rewrite number_ords in J. apply in_seq in J. lia.
Qed.

(* what the last transaction about a key says *)
Definition verdict (t : trans) : option string := if erase t then None else Some (val t).
Lemma meaning_last k l : forall o (d : dict),
  fold_left happens l d k = fold_left (fun r t => verdict t) (filter (about k) (number o l)) (d k).
Proof.
  induction l as [|a l IH]; intros o d; cbn; [reflexivity |].
  rewrite (IH (S o)). unfold about at 2. destruct a as [k' v|k']; cbn [happens trans_of key]; unfold put;
    rewrite String.eqb_sym; destruct (String.eqb k' k); reflexivity.
Qed.
Lemma fold_last (l : list trans) : forall x, fold_left (fun r t => verdict t) l x =
  match rev l with [] => x | t :: _ => verdict t end.
Proof.
  induction l as [|a l IH]; intro x; cbn; [reflexivity |]. rewrite IH. destruct (rev l) eqn:E; [| reflexivity].
  reflexivity.
Qed.

(* ---------- rationalising ---------- *)
Lemma run_spec k r : forall a b, run k r = (a, b) ->
  r = a ++ b /\ Forall (fun t => key t = k) a /\ match b with [] => True | t :: _ => key t <> k end.
Proof.
  induction r as [|t r IH]; cbn; intros a b E; [injection E as <- <-; auto |].
  destruct (strcmp (key t) k) eqn:C.
  - destruct (run k r) as (a' & b') eqn:R. injection E as <- <-. destruct (IH a' b' eq_refl) as (-> & F & G).
    apply strcmp_eq in C. split; [reflexivity |]. split; [constructor; auto | exact G].
  - injection E as <- <-. split; [reflexivity |]. split; [constructor |]. intro H. apply strcmp_eq in H. congruence.
  - injection E as <- <-. split; [reflexivity |]. split; [constructor |]. intro H. apply strcmp_eq in H. congruence.
Qed.

(* from the top down keys do not increase *)
Definition down (a b : trans) : Prop := before (key b) (key a) \/ key b = key a.
Definition kept (r : list trans) : list trans := filter (fun t => negb (erase t)) r.
Lemma kept_erased l : kept (map erased l) = [].
Proof. induction l; cbn; auto. Qed.
Lemma kept_app a b : kept (a ++ b) = kept a ++ kept b.
Proof. apply filter_app. Qed.

Lemma rat_spec fuel : forall r, List.length r < fuel -> StronglySorted down r ->
  exists q, rat fuel r = Ok q /\
    (forall t, In t (kept q) -> In t r) /\
    StronglySorted (fun a b => before (key b) (key a)) (kept q) /\
    forall k, match filter (about k) r with
              | [] => ~ In k (map key (kept q))
              | t :: _ => if erase t then ~ In k (map key (kept q)) else In t (kept q)
              end.
Proof.
  induction fuel as [|fuel IH]; intros r L S; [lia |].
  destruct r as [|top r]; [exists []; cbn; repeat split; try constructor; tauto |].
  cbn [rat]. destruct (run (key top) r) as (same & rest) eqn:R.
  destruct (run_spec _ _ _ _ R) as (-> & F & G).
  inversion S as [|? ? S' D]; subst.
  assert (Srest : StronglySorted down rest).
  { clear - S'. induction same; [exact S' |]. inversion S'; auto. }
  assert (Lo : forall t, In t rest -> before (key t) (key top)).
  { intros t I. destruct rest as [|u rest]; [destruct I |].
    assert (U : before (key u) (key top)).
    { rewrite Forall_forall in D. destruct (D u) as [H|H]; [apply in_or_app; right; left; reflexivity | exact H | congruence]. }
    destruct I as [<-|I]; [exact U |].
    inversion Srest as [|? ? S2 D2]; subst. rewrite Forall_forall in D2. destruct (D2 t I) as [H|H].
    - eapply before_trans; eassumption.
    - rewrite H. exact U. }
  destruct (IH rest) as (q & Eq & Sub & St & Sp); [cbn in L; rewrite app_length in L; lia | exact Srest |].
  rewrite Eq. cbn [obind].
  set (h := if erase top then erased top :: map erased same else top :: map erased same).
  exists (h ++ q). split; [reflexivity |].
  assert (Kh : kept h = if erase top then [] else [top]).
  { unfold h. destruct (erase top) eqn:E; cbn; [apply kept_erased |]. rewrite E. cbn. f_equal. apply kept_erased. }
  rewrite kept_app, Kh.
  assert (NK : ~ In (key top) (map key (kept q))).
  { intro I. apply in_map_iff in I. destruct I as (t & E & I). apply Sub in I. apply Lo in I. rewrite E in I. exact (before_irrefl _ I). }
  split; [| split].
  - intros t I. apply in_app_or in I. destruct I as [I|I].
    + destruct (erase top); [destruct I |]. destruct I as [<-|[]]. left. reflexivity.
    + right. apply in_or_app. right. auto.
  - destruct (erase top); cbn; [exact St |]. constructor; [exact St |]. apply Forall_forall. intros t I. apply Lo, Sub, I.
  - intro k. cbn [filter]. unfold about at 1. destruct (String.eqb (key top) k) eqn:EK.
    + apply String.eqb_eq in EK. subst k. destruct (erase top) eqn:E; [exact NK | left; reflexivity].
    + assert (Fs : filter (about k) same = []).
      { clear - F EK. induction F as [|x same Hx F IH]; cbn; [reflexivity |]. unfold about at 1. rewrite Hx, EK. exact IH. }
      rewrite filter_app, Fs. cbn [app]. specialize (Sp k). destruct (filter (about k) rest) as [|t0 ?] eqn:FR.
      * intro I. rewrite map_app in I. apply in_app_or in I. destruct I as [I|I]; [| auto].
        destruct (erase top); [destruct I |]. destruct I as [<-|[]]. rewrite String.eqb_refl in EK. discriminate.
      * destruct (erase t0).
        -- intro I. rewrite map_app in I. apply in_app_or in I. destruct I as [I|I]; [| auto].
           destruct (erase top); [destruct I |]. destruct I as [<-|[]]. rewrite String.eqb_refl in EK. discriminate.
        -- apply in_or_app. right. exact Sp.
Qed.

Lemma sorted_rev {A} (R : A -> A -> Prop) l : StronglySorted R l -> StronglySorted (fun a b => R b a) (rev l).
Proof.
  induction 1 as [|a l S IH F]; cbn; [constructor |].
  assert (G : forall m (x : A), StronglySorted (fun a b => R b a) m -> Forall (fun b => R x b) m -> StronglySorted (fun a b => R b a) (m ++ [x])).
  { clear. induction m as [|b m IH]; intros x S F; cbn; [repeat constructor |]. inversion S; inversion F; subst.
    constructor; [auto |]. apply Forall_app. split; [assumption | constructor; [assumption | constructor]]. }
  apply G; [exact IH |]. apply Forall_rev. exact F.
Qed.
Lemma filter_rev {A} (f : A -> bool) l : filter f (rev l) = rev (filter f l).
Proof. induction l as [|a l IH]; cbn; [reflexivity |]. rewrite filter_app, IH. cbn. destruct (f a); cbn; [reflexivity | apply app_nil_r]. Qed.

Lemma assoc_in d k v : StronglySorted (fun a b : string * string => before (fst a) (fst b)) d -> In (k, v) d -> assoc d k = Some v.
Proof.
  induction 1 as [|(k' & v') d S IH F]; cbn; [tauto |]. intros [E|I].
  - injection E as -> ->. rewrite String.eqb_refl. reflexivity.
  - destruct (String.eqb_spec k k') as [->|N]; [| auto]. rewrite Forall_forall in F. apply F in I. cbn in I.
    exfalso. exact (before_irrefl _ I).
Qed.
Lemma assoc_none d k : ~ In k (map fst d) -> assoc d k = None.
Proof.
  induction d as [|(k' & v') d IH]; cbn; intro N; [reflexivity |].
  destruct (String.eqb_spec k k') as [->|E]; [exfalso; apply N; left; reflexivity | apply IH; tauto].
Qed.

Lemma compile_spec l : exists d, compile l = Ok d /\
  StronglySorted (fun a b => before (fst a) (fst b)) d /\ forall k, assoc d k = meaning l k.
Proof.
  unfold compile, rationalise. rewrite array_number. set (s := sort_array (number 0 l)).
  assert (Ss : StronglySorted lt_t s) by (apply sort_sorted, number_distinct).
  destruct (rat_spec (S (List.length s)) (rev s)) as (q & Eq & Sub & St & Sp).
  { rewrite rev_length. lia. }
  { apply sorted_rev in Ss. clear - Ss. induction Ss as [|a m S IH F]; constructor; [exact IH |].
    eapply Forall_impl; [| exact F]. intros b H. apply lt_t_spec in H. unfold down. destruct H as [H|(H & _)]; auto. }
  rewrite Eq. cbn [obind]. eexists. split; [reflexivity |].
  unfold compress. rewrite filter_rev. fold (kept q). rewrite map_rev.
  set (d := rev (map (fun t => (key t, val t)) (kept q))).
  assert (Sd : StronglySorted (fun a b : string * string => before (fst a) (fst b)) d).
  { apply (sorted_rev (fun a b : string * string => before (fst b) (fst a))).
    clear - St. induction St as [|a m S IH F]; cbn; constructor; [exact IH |]. apply Forall_map.
    eapply Forall_impl; [| exact F]. cbn. auto. }
  split; [exact Sd |]. intro k. unfold meaning. rewrite (meaning_last k l 0 nothing), fold_last.
  rewrite <- (about_sorted k (number 0 l)) by (apply number_distinct || apply number_increasing).
  fold s. rewrite <- filter_rev. specialize (Sp k). destruct (filter (about k) (rev s)) as [|t ts] eqn:Fk.
  - apply assoc_none. unfold d. rewrite map_rev, map_map. cbn. intro I. apply in_rev in I. auto.
  - assert (T : about k t = true).
    { assert (I : In t (t :: ts)) by (left; reflexivity). rewrite <- Fk in I. apply filter_In in I. apply I. }
    apply String.eqb_eq in T. unfold verdict. destruct (erase t).
    + apply assoc_none. unfold d. rewrite map_rev, map_map. cbn. intro I. apply in_rev in I. auto.
    + apply assoc_in; [exact Sd |]. unfold d. apply -> in_rev. apply in_map_iff. exists t. rewrite T. auto.
Qed.
