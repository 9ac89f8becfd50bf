From Coq Require Import String List NArith Bool Arith Lia.
From Verif Require Import Base TokData TokModel ErasureProofs DfaModel CategModel CategSpec CategProofs.
Import ListNotations.
Open Scope N_scope.
Open Scope list_scope.

(* ---------------------------------------------------------------- *)
(* kinds of constructs, abstractly *)

(* a neighbour that is the same, or is now a marker *)
Definition sim (n n' : option item) : Prop := n' = n \/ exists t, n' = Some (M t).

Lemma sim_refl n : sim n n.
Proof. left. reflexivity. Qed.

Lemma sim_insert x t y : sim (neighbour (x ++ y)) (neighbour (x ++ M t :: y)).
Proof.
  unfold neighbour. rewrite !filter_app. cbn [filter counts]. destruct (filter counts x); [|left; reflexivity].
  cbn. destruct (bracket t); [right|left]; cbn; eauto.
Qed.

Lemma sim_trans a b c : sim a b -> sim b c -> sim a c.
Proof. intros [->|(t & ->)] [->|(t' & ->)]; unfold sim; eauto. Qed.

Record akind : Type := AKind {
  a_sel : item -> bool;                    (* selected items *)
  a_al : item -> bool;                     (* items inside, after the first *)
  a_fin : item -> bool;                    (* the last item *)
  a_hd : item -> bool;                     (* the first item *)
  a_occ : list item -> list item -> list item -> Prop;
  a_shape : forall u g v, a_occ u g v -> exists s r e, g = s :: r ++ [e] /\ a_hd s = true /\
    forallb a_al (r ++ [e]) = true /\ a_fin e = true;
  a_mono : forall u g v u' v', a_occ u g v -> sim (neighbour (rev u)) (neighbour (rev u')) ->
    sim (neighbour v) (neighbour v') -> a_occ u' g v'
}.

Definition Q (K : akind) (l r : list item) : Prop :=
  forall u i v, l = u ++ i :: v -> a_sel K i = true ->
    exists u' g1 g2 v', u = u' ++ g1 /\ v = g2 ++ v' /\ a_occ K u' (g1 ++ i :: g2) (v' ++ r).

Lemma split_mid {A} (a b u v : list A) m i : a ++ m :: b = u ++ i :: v ->
  (exists z, a = u ++ i :: z /\ v = z ++ m :: b) \/ (a = u /\ i = m /\ v = b) \/
  (exists z, u = a ++ m :: z /\ b = z ++ i :: v).
Proof.
  revert u. induction a as [|x a IH]; intros u H.
  - destruct u as [|y u]; cbn in H.
    + injection H as -> ->. right. left. auto.
    + injection H as -> ->. right. right. exists u. auto.
  - destruct u as [|y u]; cbn in H.
    + injection H as -> <-. left. exists a. auto.
    + injection H as -> H. destruct (IH u H) as [(z & -> & ->)|[(-> & -> & ->)|(z & -> & ->)]].
      * left. exists z. auto.
      * right. left. auto.
      * right. right. exists z. auto.
Qed.

Lemma app_split {A} (a b c d : list A) : a ++ b = c ++ d ->
  (exists z, c = a ++ z /\ b = z ++ d) \/ (exists z, z <> [] /\ a = c ++ z /\ d = z ++ b).
Proof.
  revert c. induction a as [|x a IH]; intros c H.
  - left. exists c. auto.
  - destruct c as [|y c]; cbn in H.
    + right. exists (x :: a). repeat split; [discriminate|]. auto.
    + injection H as -> H. destruct (IH c H) as [(z & -> & ->)|(z & N & -> & ->)].
      * left. exists z. auto.
      * right. exists z. auto.
Qed.

Section Kind.
Variable K : akind.

Definition no_split (A B : list item) : Prop :=
  forall u g1 g2 v x y, A = u ++ g1 -> B = g2 ++ v -> g1 <> [] -> g2 <> [] -> ~ a_occ K x (g1 ++ g2) y.

Lemma Q_insert A B r t : no_split A B -> a_sel K (M t) = false -> Q K (A ++ B) r -> Q K (A ++ M t :: B) r.
Proof.
  intros N St H u i v E Si. destruct (split_mid _ _ _ _ _ _ E) as [(z & -> & ->)|[(-> & -> & ->)|(z & -> & ->)]].
  - destruct (H u i (z ++ B)) as (u' & g1 & g2 & v' & -> & E' & O); [rewrite <- app_assoc; reflexivity|exact Si|].
    symmetry in E'. destruct (app_split _ _ _ _ E') as [(w & -> & ->)|(w & Nw & -> & ->)].
    + exists u', g1, g2, (w ++ M t :: B). rewrite <- app_assoc. repeat split.
      eapply a_mono; [exact O|apply sim_refl|]. rewrite <- !app_assoc. cbn [app]. apply sim_insert.
    + exfalso. apply (N u' (g1 ++ i :: z) w v' u' (v' ++ r)); auto.
      * rewrite <- app_assoc. reflexivity.
      * destruct g1; discriminate.
      * rewrite <- app_assoc. exact O.
  - congruence.
  - destruct (H (A ++ z) i v) as (u' & g1 & g2 & v' & E' & -> & O); [rewrite <- app_assoc; reflexivity|exact Si|].
    destruct (app_split _ _ _ _ E') as [(w & -> & ->)|(w & Nw & -> & ->)].
    + exists (A ++ M t :: w), g1, g2, v'. repeat split.
      * rewrite <- app_assoc. reflexivity.
      * eapply a_mono; [exact O| |apply sim_refl]. rewrite !rev_app_distr. cbn [rev]. rewrite <- app_assoc. cbn [app].
        apply sim_insert.
    + exfalso. apply (N u' w (z ++ i :: g2) v' u' (v' ++ r)); auto.
      * rewrite <- app_assoc. reflexivity.
      * destruct z; discriminate.
      * rewrite <- app_assoc in O. exact O.
Qed.

Lemma shape_cut u g1 g2 v : a_occ K u (g1 ++ g2) v -> g1 <> [] -> g2 <> [] ->
  exists s g1' g2' e, g1 = s :: g1' /\ g2 = g2' ++ [e] /\ a_hd K s = true /\
    forallb (a_al K) g1' = true /\ forallb (a_al K) g2 = true /\ a_fin K e = true.
Proof.
  intros O N1 N2. apply a_shape in O. destruct O as (s & r & e & E & Hs & Ha & He).
  destruct g1 as [|s' g1']; [contradiction|]. cbn in E. injection E as -> E.
  destruct (exists_last N2) as (g2' & e' & ->). rewrite app_assoc in E. apply app_inj_tail in E. destruct E as [E ->].
  exists s, g1', g2', e. rewrite <- E, <- app_assoc, forallb_app, andb_true_iff in Ha. intuition.
Qed.

Lemma split_fwd A B : (exists xs y rest, B = xs ++ y :: rest /\ existsb (a_fin K) xs = false /\ a_al K y = false) ->
  no_split A B.
Proof.
  intros (xs & y & rest & -> & Hx & Hy) u g1 g2 v x z -> E N1 N2 O.
  destruct (shape_cut _ _ _ _ O N1 N2) as (s & g1' & g2' & e & -> & -> & Hs & Ha1 & Ha2 & He).
  destruct (app_split _ _ _ _ E) as [([|w0 w] & E1 & E2)|(w & Nw & E1 & E2)].
  - rewrite app_nil_r in E1. subst xs. rewrite existsb_app in Hx. cbn in Hx. rewrite He, orb_true_r in Hx. discriminate.
  - cbn in E2. injection E2 as -> ->. rewrite E1, forallb_app in Ha2. cbn in Ha2. rewrite Hy, andb_false_r in Ha2. discriminate.
  - subst xs. rewrite !existsb_app in Hx. cbn in Hx. rewrite He, orb_true_r in Hx. discriminate.
Qed.

Lemma split_bwd A B : (exists rest y xs, A = rest ++ y :: xs /\ existsb (a_hd K) (y :: xs) = false /\ a_al K y = false) ->
  no_split A B.
Proof.
  intros (rest & y & xs & -> & Hx & Hy) u g1 g2 v x z E _ N1 N2 O.
  destruct (shape_cut _ _ _ _ O N1 N2) as (s & g1' & g2' & e & -> & -> & Hs & Ha1 & Ha2 & He).
  destruct (split_mid _ _ _ _ _ _ E) as [(w & -> & ->)|[(-> & -> & ->)|(w & -> & ->)]].
  - rewrite forallb_app in Ha1. cbn in Ha1. rewrite Hy, andb_false_r in Ha1. discriminate.
  - cbn in Hx. rewrite Hs in Hx. discriminate.
  - cbn in Hx. rewrite existsb_app in Hx. cbn in Hx. rewrite Hs, !orb_true_r in Hx. discriminate.
Qed.

(* forgetting a tail in which nothing ends *)
Lemma Q_shrink A xs r : Q K (A ++ xs) r -> existsb (a_fin K) xs = false -> Q K A (xs ++ r).
Proof.
  intros H Hx u i v -> Si. destruct (H u i (v ++ xs)) as (u' & g1 & g2 & v' & -> & E & O); [rewrite <- app_assoc; reflexivity|exact Si|].
  destruct (app_split _ _ _ _ E) as [(w & -> & ->)|(w & Nw & -> & ->)].
  - destruct w as [|w0 w].
    + exists u', g1, v, []. rewrite app_nil_r in *. auto.
    + exfalso. destruct (shape_cut u' (g1 ++ i :: v) (w0 :: w) (v' ++ r)) as (s & g1' & g2' & e & _ & E2 & _ & _ & _ & He).
      * rewrite <- app_assoc. exact O.
      * destruct g1; discriminate.
      * discriminate.
      * rewrite E2, !existsb_app in Hx. cbn in Hx. rewrite He, orb_true_r in Hx. discriminate.
  - exists u', g1, g2, w. rewrite app_assoc. auto.
Qed.

(* adding an item that is not selected *)
Lemma Q_snoc A x r : Q K A (x :: r) -> a_sel K x = false -> Q K (A ++ [x]) r.
Proof.
  intros H Sx u i v E Si. destruct (split_mid _ _ _ _ _ _ E) as [(z & -> & ->)|[(-> & -> & ->)|(z & _ & E')]].
  - destruct (H u i z eq_refl Si) as (u' & g1 & g2 & v' & -> & -> & O). exists u', g1, g2, (v' ++ [x]).
    rewrite <- !app_assoc. auto.
  - congruence.
  - destruct z; discriminate.
Qed.

(* adding a complete construct *)
Lemma Q_add A g r r0 : Q K A r0 -> (forall x, sim (neighbour (x ++ r0)) (neighbour (x ++ g ++ r))) ->
  a_occ K A g r -> Q K (A ++ g) r.
Proof.
  intros H Hs O u i v E Si. symmetry in E. destruct (app_split _ _ _ _ E) as [(z & -> & Ez)|(z & Nz & -> & ->)].
  - destruct z as [|z0 z].
    + cbn [app] in Ez. rewrite app_nil_r in O. exists u, [], v, []. rewrite !app_nil_r. repeat split. cbn [app]. rewrite Ez. exact O.
    + cbn in Ez. injection Ez as <- ->. destruct (H u i z eq_refl Si) as (u' & g1 & g2 & v' & -> & -> & O').
      exists u', g1, g2, (v' ++ g). rewrite <- !app_assoc. repeat split.
      eapply a_mono; [exact O'|apply sim_refl|]. apply Hs.
  - exists A, z, v, []. rewrite app_nil_r. repeat split. exact O.
Qed.

Lemma Q_nil r : Q K [] r.
Proof. intros u i v E. destruct u; discriminate. Qed.

(* items that are not selected are no reason to move *)
Lemma Q_rest A r r' : Q K A r -> (forall x, sim (neighbour (x ++ r)) (neighbour (x ++ r'))) -> Q K A r'.
Proof.
  intros H Hs u i v E Si. destruct (H u i v E Si) as (u' & g1 & g2 & v' & E1 & E2 & O).
  exists u', g1, g2, v'. repeat split; auto. eapply a_mono; [exact O|apply sim_refl|apply Hs].
Qed.

End Kind.

(* ---------------------------------------------------------------- *)
(* passes as sequences of insertions *)

Inductive grows (R : list item -> tok -> list item -> Prop) : list node -> list node -> Prop :=
| grows_refl l : grows R l l
| grows_step A m t B out : dat m = N_MARKER t -> R (items A) t (items B) ->
    grows R (A ++ m :: B) out -> grows R (A ++ B) out.

Lemma grows_trans R a b c : grows R a b -> grows R b c -> grows R a c.
Proof. induction 1; intro; [assumption|]. eapply grows_step; eauto. Qed.

Lemma grows_one (R : list item -> tok -> list item -> Prop) A m t B :
  dat m = N_MARKER t -> R (items A) t (items B) -> grows R (A ++ B) (A ++ m :: B).
Proof. intros H1 H2. eapply grows_step; eauto. constructor. Qed.

(* the insertion is next to a word from [co], with only [si] in between *)
Definition near (co si : item -> bool) (bwd : bool) (mk : tok -> bool)
           (A : list item) (t : tok) (B : list item) : Prop :=
  mk t = true /\
  ((exists xs y rest, B = xs ++ y :: rest /\ forallb si xs = true /\ co y = true) \/
   (bwd = true /\ exists rest y xs, A = rest ++ y :: xs /\ forallb si xs = true /\ co y = true)).

(* such insertions do not disturb the kind *)
Definition foreign (K : akind) (co si : item -> bool) (bwd : bool) (mk : tok -> bool) : Prop :=
  (forall t, mk t = true -> a_sel K (M t) = false) /\
  (forall i, co i = true -> a_al K i = false /\ (bwd = true -> a_hd K i = false)) /\
  (forall i, si i = true -> a_fin K i = false /\ (bwd = true -> a_hd K i = false)).

Lemma forallb_existsb {A} (f g : A -> bool) l : (forall x, f x = true -> g x = false) ->
  forallb f l = true -> existsb g l = false.
Proof.
  intros H F. induction l as [|x l IH]; [reflexivity|]. cbn in *. apply andb_true_iff in F. destruct F as [F1 F2].
  rewrite (H x F1), IH; auto.
Qed.

Lemma near_keeps K co si bwd mk : foreign K co si bwd mk ->
  forall A t B r, near co si bwd mk A t B -> Q K (A ++ B) r -> Q K (A ++ M t :: B) r.
Proof.
  intros (F1 & F2 & F3) A t B r (Hm & H). apply Q_insert; [|auto].
  destruct H as [(xs & y & rest & E & Hx & Hy)|(Hb & rest & y & xs & E & Hx & Hy)].
  - apply split_fwd. exists xs, y, rest. repeat split; auto.
    + eapply forallb_existsb; [|exact Hx]. intros i Hi. apply F3. exact Hi.
    + apply F2. exact Hy.
  - apply split_bwd. exists rest, y, xs. repeat split; auto.
    + cbn. rewrite (proj2 (F2 y Hy) Hb). eapply forallb_existsb; [|exact Hx]. intros i Hi. apply F3; assumption.
    + apply F2. exact Hy.
Qed.

Lemma item_marker m t : dat m = N_MARKER t -> item_of m = M t.
Proof. unfold item_of. intros ->. reflexivity. Qed.

Lemma grows_keeps K co si bwd mk l out r : foreign K co si bwd mk -> grows (near co si bwd mk) l out ->
  Q K (items l) r -> Q K (items out) r.
Proof.
  intros F G. induction G; [auto|]. intro H1. apply IHG. unfold items in *.
  rewrite map_app in *. cbn [map]. rewrite (item_marker m t) by assumption. eapply near_keeps; eauto.
Qed.

(* words and added markers *)
Lemma grows_mw (R : list item -> tok -> list item -> Prop) (P : tok -> bool) l out :
  (forall A t B, R A t B -> P t = true) -> grows R l out -> marked_with P l out.
Proof.
  intros HR G. induction G.
  - induction l; constructor; assumption.
  - assert (P t = true) by eauto. revert IHG. clear G H0.
    generalize out. clear out. induction A as [|x A IH]; intros out G; cbn [app] in *.
    + remember (m :: B) as l eqn:E. induction G as [|x l l' G IH'|m' t' l l' Em Hp G IH'].
      * discriminate.
      * injection E as -> ->. econstructor; eauto.
      * econstructor; eauto.
    + remember (x :: A ++ m :: B) as l eqn:E. induction G as [|x' l l' G IH'|m' t' l l' Em Hp G IH'].
      * discriminate.
      * injection E as -> ->. constructor. auto.
      * econstructor; eauto.
Qed.

Lemma mw_trans P a b c : marked_with P a b -> marked_with P b c -> marked_with P a c.
Proof.
  intros H1 H2. revert a H1. induction H2; intros a H1.
  - exact H1.
  - inversion H1; subst; econstructor; eauto.
  - econstructor; eauto.
Qed.

Lemma mw_weaken (P P' : tok -> bool) a b : (forall t, P t = true -> P' t = true) -> marked_with P a b -> marked_with P' a b.
Proof. intros H. induction 1; econstructor; eauto. Qed.

Lemma mw_words P a b : marked_with P a b -> words b = words a.
Proof.
  unfold words. induction 1 as [|x l l' H IH|m t l l' E Hp H IH]; [reflexivity| |].
  - cbn [filter]. destruct (negb (is_marker x)); cbn [map]; congruence.
  - cbn [filter]. unfold is_marker at 1. rewrite E. cbn [negb]. exact IH.
Qed.

(* ---------------------------------------------------------------- *)
(* each pass is a sequence of insertions of its own sort *)

Definition w_in (ts : list tok) (i : item) : bool :=
  match i with W t => existsb (tok_eqb t) ts | _ => false end.
Definition m_in (ts : list tok) (i : item) : bool :=
  match i with M t => existsb (tok_eqb t) ts | _ => false end.

Lemma tok_in_of t ts : In t ts -> existsb (tok_eqb t) ts = true.
Proof. intro H. apply existsb_exists. exists t. split; [exact H|apply tok_eqb_refl]. Qed.

Lemma cmtest_item x t : cmtest x t = true <-> item_of x = W t.
Proof.
  unfold cmtest, item_of. destruct (dat x); split; intro H; try discriminate.
  - apply tok_eqb_eq in H. congruence.
  - injection H as ->. apply tok_eqb_refl.
Qed.

Lemma mkrtest_item x t : mkrtest x t = true <-> item_of x = M t.
Proof.
  unfold mkrtest, item_of. destruct (dat x); split; intro H; try discriminate.
  - apply tok_eqb_eq in H. congruence.
  - injection H as ->. apply tok_eqb_refl.
Qed.

Lemma items_app a b : items (a ++ b) = items a ++ items b.
Proof. apply map_app. Qed.

Lemma items_rev a : items (rev a) = rev (items a).
Proof. apply map_rev. Qed.

Lemma over_ok ts : forall l a b, over ts l = (a, b) ->
  l = a ++ b /\ forallb (w_in ts) (items a) = true.
Proof.
  induction ts as [|t ts IH]; intros l a b H; cbn [over] in H.
  - injection H as <- <-. auto.
  - assert (W' : forall i, w_in ts i = true -> w_in (t :: ts) i = true).
    { intros i Hi. destruct i; try discriminate. cbn in *. rewrite Hi. apply orb_true_r. }
    assert (Wf : forall l, forallb (w_in ts) l = true -> forallb (w_in (t :: ts)) l = true).
    { intros l0 F. rewrite forallb_forall in *. auto. }
    destruct l as [|y l]; [injection H as <- <-; auto|].
    destruct (cmtest y t) eqn:E.
    + destruct (over ts l) as [a' b'] eqn:E'. injection H as <- <-. destruct (IH _ _ _ E') as [-> F].
      split; [reflexivity|]. cbn [items map forallb]. apply cmtest_item in E. rewrite E. cbn. rewrite tok_eqb_refl.
      apply Wf. exact F.
    + destruct (IH _ _ _ H) as [-> F]. auto.
Qed.

Lemma forallb_rev {A} (f : A -> bool) l : forallb f (rev l) = forallb f l.
Proof. induction l; [reflexivity|]. cbn. rewrite forallb_app, IHl. cbn. rewrite andb_true_r. apply andb_comm. Qed.

Definition is_tok (t t' : tok) : bool := tok_eqb t' t.

Lemma insert_back_grows ts m pre x post co mk bwd : co (item_of x) = true -> mk m = true ->
  grows (near co (w_in ts) bwd mk) (rev pre ++ x :: post) (rev (insert_back ts m pre) ++ x :: post).
Proof.
  intros Hc Hm. unfold insert_back. destruct (over ts pre) as [a b] eqn:E. apply over_ok in E. destruct E as [-> F].
  rewrite !rev_app_distr. cbn [rev]. rewrite <- !app_assoc. cbn [app]. apply grows_one with (t := m); [reflexivity|].
  split; [exact Hm|]. left. exists (items (rev a)), (item_of x), (items post). repeat split; auto.
  - apply items_app.
  - rewrite items_rev, forallb_rev. exact F.
Qed.

Lemma rev_mid {A} (x : A) pre post : rev (x :: pre) ++ post = rev pre ++ x :: post.
Proof. cbn [rev]. rewrite <- app_assoc. reflexivity. Qed.

Lemma open_pass_grows c ts m : forall post pre,
  grows (near (w_in [c]) (w_in ts) false (is_tok m)) (rev pre ++ post) (open_pass c ts m pre post).
Proof.
  induction post as [|x post IH]; intro pre; cbn [open_pass].
  - rewrite app_nil_r. constructor.
  - destruct (cmtest x c) eqn:E.
    + eapply grows_trans; [|apply IH]. rewrite rev_mid. apply insert_back_grows.
      * apply cmtest_item in E. rewrite E. cbn. rewrite tok_eqb_refl. reflexivity.
      * apply tok_eqb_refl.
    + rewrite <- rev_mid. apply IH.
Qed.

(* words, start and end markers of a set of connectives with end marker *)
Definition ks_core (ks : list closed_conn) : list tok := map k_core ks.
Definition ks_side (ks : list closed_conn) : list tok := flat_map (fun k => k_back k ++ k_fwd k) ks.
Definition ks_mark (ks : list closed_conn) (t : tok) : bool :=
  existsb (fun k => tok_eqb t (k_start k) || tok_eqb t (k_end k)) ks.

Lemma w_in_mono ts ts' : incl ts ts' -> forall l, forallb (w_in ts) l = true -> forallb (w_in ts') l = true.
Proof.
  intros I l F. rewrite forallb_forall in *. intros i Hi. specialize (F i Hi). destruct i; try discriminate. cbn in *.
  apply existsb_exists in F. destruct F as (y & Hy & E). apply existsb_exists. exists y. auto.
Qed.

Lemma near_mono co si si' bwd mk A t B : (forall l, forallb si l = true -> forallb si' l = true) ->
  near co si bwd mk A t B -> near co si' bwd mk A t B.
Proof.
  intros H (Hm & [(xs & y & rest & E & F & C)|(Hb & rest & y & xs & E & F & C)]); split; auto.
  - left. exists xs, y, rest. auto.
  - right. split; auto. exists rest, y, xs. auto.
Qed.

Lemma grows_mono (R R' : list item -> tok -> list item -> Prop) l out :
  (forall A t B, R A t B -> R' A t B) -> grows R l out -> grows R' l out.
Proof. intros H. induction 1; [constructor|]. eapply grows_step; eauto. Qed.

Lemma closed_pass_grows ks : forall fuel pre post, (List.length post < fuel)%nat ->
  exists out, closed_pass fuel ks pre post = Ok out /\
    grows (near (w_in (ks_core ks)) (w_in (ks_side ks)) true (ks_mark ks)) (rev pre ++ post) out.
Proof.
  induction fuel as [|fuel IH]; intros pre post L; [lia|]. cbn [closed_pass]. destruct post as [|x post].
  - exists (rev pre). rewrite app_nil_r. split; [reflexivity|constructor].
  - destruct (find (fun k => cmtest x (k_core k)) ks) as [k|] eqn:Fk.
    + apply find_some in Fk. destruct Fk as [Ik Ek]. destruct (over (k_fwd k) post) as [a b] eqn:Eo.
      destruct (over_ok _ _ _ _ Eo) as [-> Fa]. cbn [List.length] in L. rewrite app_length in L.
      destruct (IH (marker (k_end k) b :: rev a ++ x :: insert_back (k_back k) (k_start k) pre) b) as (out & E & G); [lia|].
      exists out. split; [exact E|].
      assert (Hc : w_in (ks_core ks) (item_of x) = true).
      { apply cmtest_item in Ek. rewrite Ek. apply tok_in_of. apply in_map. exact Ik. }
      eapply grows_trans; [|exact G].
      eapply grows_trans; [eapply grows_mono; [|apply (insert_back_grows (k_back k) (k_start k) pre x (a ++ b)
        (w_in (ks_core ks)) (ks_mark ks) true Hc)]|].
      * intros A t B. apply near_mono. apply w_in_mono. intros t' Ht. apply in_flat_map. exists k. rewrite in_app_iff. auto.
      * apply existsb_exists. exists k. rewrite tok_eqb_refl. auto.
      * rewrite rev_mid, rev_app_distr, rev_involutive. cbn [rev]. rewrite <- !app_assoc. cbn [app].
        change (x :: a ++ b) with ((x :: a) ++ b). change (x :: a ++ marker (k_end k) b :: b) with ((x :: a) ++ marker (k_end k) b :: b).
        rewrite !app_assoc. apply grows_one with (t := k_end k); [reflexivity|]. split.
        -- apply existsb_exists. exists k. rewrite tok_eqb_refl, orb_true_r. auto.
        -- right. split; [reflexivity|]. exists (items (rev (insert_back (k_back k) (k_start k) pre))), (item_of x), (items a).
           rewrite items_app. repeat split; auto. revert Fa. apply w_in_mono. intros t' Ht. apply in_flat_map. exists k.
           rewrite in_app_iff. auto.
    + destruct (IH (x :: pre) post) as (out & E & G); [cbn in L; lia|]. exists out. rewrite rev_mid in G. auto.
Qed.

Lemma pair_pass_grows a b m : forall post pre,
  grows (near (w_in [b]) (w_in [a]) false (is_tok m)) (pre ++ post) (pre ++ pair_pass a b m post).
Proof.
  induction post as [|x post IH]; intro pre; cbn [pair_pass]; [constructor|].
  assert (I : forall pre, grows (near (w_in [b]) (w_in [a]) false (is_tok m)) (pre ++ x :: post) (pre ++ x :: pair_pass a b m post)).
  { intro q. specialize (IH (q ++ [x])). rewrite <- !app_assoc in IH. exact IH. }
  destruct (cmtest x a && _) eqn:E; [|apply I].
  apply andb_true_iff in E. destruct E as [Ea Eb]. destruct post as [|y post]; [discriminate|].
  eapply grows_trans; [apply grows_one with (m := marker m (x :: y :: post)) (t := m); [reflexivity|]|].
  - split; [apply tok_eqb_refl|]. left. exists [item_of x], (item_of y), (items post). repeat split.
    + cbn. apply cmtest_item in Ea. rewrite Ea. cbn. rewrite tok_eqb_refl. reflexivity.
    + apply cmtest_item in Eb. rewrite Eb. cbn. rewrite tok_eqb_refl. reflexivity.
  - specialize (I (pre ++ [marker m (x :: y :: post)])). rewrite <- !app_assoc in I. exact I.
Qed.

Lemma over_number_ok : forall l a b, over_number l = (a, b) -> l = a ++ b /\ forallb number_node a = true.
Proof.
  induction l as [|y l IH]; intros a b H; cbn [over_number] in H.
  - injection H as <- <-. auto.
  - destruct (number_node y) eqn:E.
    + destruct (over_number l) as [a' b'] eqn:E'. injection H as <- <-. destruct (IH _ _ eq_refl) as [-> F].
      split; [reflexivity|]. cbn. rewrite E. exact F.
    + injection H as <- <-. auto.
Qed.

Definition number_item (i : item) : bool :=
  match i with W (T_PA | T_BU | T_BY | T_LAU | T_TEI | T_FOI) => true | Bu => true | _ => false end.

Lemma number_node_item y : number_node y = number_item (item_of y).
Proof. unfold number_node, item_of. destruct (dat y); reflexivity. Qed.

Lemma forallb_items (f : item -> bool) l : forallb f (items l) = forallb (fun x => f (item_of x)) l.
Proof. induction l; [reflexivity|]. cbn. rewrite IHl. reflexivity. Qed.

Lemma number_pass_grows c m : forall post pre,
  grows (near (w_in [c]) number_item false (is_tok m)) (rev pre ++ post) (number_pass c m pre post).
Proof.
  induction post as [|x post IH]; intro pre; cbn [number_pass].
  - rewrite app_nil_r. constructor.
  - destruct (cmtest x c) eqn:E.
    + destruct (over_number pre) as [a b] eqn:En. destruct (over_number_ok _ _ _ En) as [-> F].
      destruct a as [|a0 a]; [rewrite <- rev_mid; apply IH|]. revert F. generalize (a0 :: a). clear En a0 a. intros a F.
      eapply grows_trans; [|apply IH]. rewrite rev_mid. rewrite !rev_app_distr. cbn [rev]. rewrite <- !app_assoc. cbn [app].
      apply grows_one with (t := m); [reflexivity|]. split; [apply tok_eqb_refl|]. left.
      exists (items (rev a)), (item_of x), (items post). repeat split.
      * apply items_app.
      * rewrite items_rev, forallb_rev, forallb_items. rewrite forallb_forall in *.
        intros y Hy. rewrite <- number_node_item. auto.
      * apply cmtest_item in E. rewrite E. cbn. rewrite tok_eqb_refl. reflexivity.
    + rewrite <- rev_mid. apply IH.
Qed.

Lemma ijekjoik_grows : forall post pre,
  grows (near (w_in [T_I]) (fun _ => false) false (is_tok T_PRIVATE_I_JEKJOIK)) (rev pre ++ post) (ijekjoik_pass pre post).
Proof.
  induction post as [|x post IH]; intro pre; cbn [ijekjoik_pass].
  - rewrite app_nil_r. constructor.
  - destruct (cmtest x T_I && _ && _) eqn:E.
    + apply andb_true_iff in E. destruct E as [E _]. apply andb_true_iff in E. destruct E as [E _].
      eapply grows_trans; [|apply IH]. rewrite rev_mid. cbn [rev]. rewrite <- app_assoc. cbn [app].
      apply grows_one with (t := T_PRIVATE_I_JEKJOIK); [reflexivity|]. split; [apply tok_eqb_refl|]. left.
      exists [], (item_of x), (items post). repeat split. apply cmtest_item in E. rewrite E. reflexivity.
    + rewrite <- rev_mid. apply IH.
Qed.
