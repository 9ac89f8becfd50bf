From Coq Require Import String List NArith Bool Arith Lia.
From Verif Require Import Base TokData TokModel ErasureProofs DfaModel DfaSpec NfaData CategModel CategSpec.
From Verif Require Import CategProofs CategProofs2 CategProofs3 CategProofs4.
Import ListNotations.
Open Scope N_scope.
Open Scope list_scope.

Lemma items_imp (f g : item -> bool) : forallb (fun i => implb (f i) (g i)) all_items = true ->
  forall i, f i = true -> g i = true.
Proof.
  intros H i Hi. rewrite forallb_forall in H. specialize (H i (all_items_in i)). rewrite Hi in H. exact H.
Qed.

(* only markers from a set *)
Definition only (P : tok -> bool) (i : item) : bool := match i with M t => P t | _ => true end.
Definition among (ts : list tok) (t : tok) : bool := existsb (tok_eqb t) ts.

Lemma grows_only (P P' : tok -> bool) co si bwd mk l out :
  grows (near co si bwd mk) l out -> forallb (only P) (items l) = true ->
  (forall t, P t = true -> P' t = true) -> (forall t, mk t = true -> P' t = true) ->
  forallb (only P') (items out) = true.
Proof.
  intros G H H1 H2. assert (H' : forallb (only P') (items l) = true).
  { rewrite forallb_forall in *. intros i Hi. specialize (H i Hi). destruct i; auto. cbn in *. auto. }
  clear H H1. induction G; [exact H'|]. apply IHG. rewrite items_app in *. apply forallb_app_l in H'. destruct H' as [C1 C2].
  rewrite forallb_app, C1, items_cons. cbn [forallb]. rewrite (item_marker m t) by assumption. cbn. rewrite (H2 t), C2; [reflexivity|].
  destruct H0. assumption.
Qed.

Lemma among_imp ts ts' : forallb (fun t => among ts' t) ts = true -> forall t, among ts t = true -> among ts' t = true.
Proof.
  intros H t Ht. unfold among in Ht. apply existsb_exists in Ht. destruct Ht as (x & Hx & E). apply tok_eqb_eq in E. subst x.
  rewrite forallb_forall in H. auto.
Qed.

Lemma toks_imp (f g : tok -> bool) : forallb (fun t => implb (f t) (g t)) all_toks = true ->
  forall t, f t = true -> g t = true.
Proof.
  intros H t Ht. rewrite forallb_forall in H. specialize (H t (all_toks_in t)). rewrite Ht in H. exact H.
Qed.

Lemma only_none P k l : forallb (fun i => implb (only P i) (negb (bracket_item k i))) all_items = true ->
  forallb (only P) l = true -> existsb (bracket_item k) l = false.
Proof.
  intros H. apply forallb_existsb. intros i Hi. apply negb_true_iff. revert i Hi. apply items_imp. exact H.
Qed.

Lemma only_counts P l : forallb (fun i => implb (only P i) (counts i)) all_items = true ->
  forallb (only P) l = true -> forallb counts l = true.
Proof.
  intros H F. rewrite forallb_forall in *. intros i Hi. eapply items_imp; [|apply F; exact Hi].
  rewrite forallb_forall. exact H.
Qed.

(* ---------------------------------------------------------------- *)
(* tenses *)

Lemma Q_tense_app src a b : Q (Ktense src) a [] -> Q (Ktense src) b [] -> Q (Ktense src) (a ++ b) [].
Proof.
  intros Ha Hb u i v E Si. symmetry in E. destruct (app_split _ _ _ _ E) as [([|z0 z] & -> & Ez)|(z & Nz & -> & ->)].
  - cbn in Ez. subst b. destruct (Hb [] i v eq_refl Si) as (u' & g1 & g2 & v' & E1 & -> & O).
    destruct u'; [|discriminate]. destruct g1; [|discriminate]. exists u, [], g2, v'. rewrite !app_nil_r. repeat split. exact O.
  - cbn in Ez. injection Ez as <- ->. destruct (Ha u i z eq_refl Si) as (u' & g1 & g2 & v' & -> & -> & O).
    exists u', g1, g2, (v' ++ b). rewrite <- app_assoc. repeat split. exact O.
  - destruct (Hb z i v eq_refl Si) as (u' & g1 & g2 & v' & -> & -> & O). exists (a ++ u'), g1, g2, v'.
    rewrite app_assoc. repeat split. exact O.
Qed.

Lemma wordy_item x : wordy x = true -> only (fun _ => false) (item_of x) = true /\ item_of x <> W T_PRIVATE_NUMBER_MAI.
Proof.
  unfold wordy, item_of. destruct (dat x); intro H; split; try reflexivity; try discriminate.
  intro K. injection K as ->. discriminate.
Qed.


Lemma tense_noroi src b : tense src b -> filter (fun i => negb (item_eqb i (M T_PRIVATE_NUMBER_ROI))) b = b.
Proof.
  intros (w & r & E & _). revert w E. induction b as [|i b IH]; intros [|x w] E; try discriminate; [reflexivity|].
  cbn [map] in E. injection E as E1 E2. cbn [filter]. destruct i; try discriminate; cbn [item_eqb negb]; f_equal; eauto.
Qed.

Lemma tense_own src l out : tense_marked src l out -> forallb wordy l = true ->
  Q (Ktense src) (items out) [] /\ forallb (only tense_marks) (items out) = true /\ marked_with tense_marks l out.
Proof.
  induction 1 as [|a b b' x z Hl Hx Hz H IH|x b b' Hn H IH]; intro F.
  - split; [apply Q_nil|]. split; [reflexivity|constructor].
  - apply forallb_app_l in F. destruct F as [Fa Fb]. destruct (IH Fb) as (I1 & I2 & I3). destruct Hl as (_ & _ & Ht & _).
    assert (Oa : forallb (only tense_marks) (items a) = true).
    { rewrite forallb_items, forallb_forall in *. intros y Hy. destruct (wordy_item y (Fa y Hy)) as [O _].
      destruct (item_of y); auto. discriminate. }
    assert (E : items (mark T_PRIVATE_START_TENSE x :: a ++ mark T_PRIVATE_END_TENSE z :: b') =
      (M T_PRIVATE_START_TENSE :: items a ++ [M T_PRIVATE_END_TENSE]) ++ items b').
    { rewrite items_cons, items_app, items_cons. cbn [app]. rewrite <- app_assoc. reflexivity. }
    rewrite E. split; [|split].
    + apply Q_tense_app; [|exact I1]. intros u i v Eu Si. exists [], u, v, []. rewrite app_nil_r. repeat split.
      cbn [Ktense a_occ]. rewrite <- Eu. exists (items a). split; [reflexivity|]. rewrite (tense_noroi src); exact Ht.
    + rewrite forallb_app. cbn [forallb]. rewrite forallb_app, Oa, I2. reflexivity.
    + eapply mw_add; [reflexivity|reflexivity|]. clear - I3. induction a as [|y a IHa].
      * eapply mw_add; [reflexivity|reflexivity|]. exact I3.
      * cbn [app]. constructor. exact IHa.
  - cbn [forallb] in F. apply andb_true_iff in F. destruct F as [Fx Fb]. destruct (IH Fb) as (I1 & I2 & I3).
    destruct (wordy_item x Fx) as [O _]. assert (Sx : only tense_marks (item_of x) = true) by (destruct (item_of x); auto; discriminate).
    rewrite items_cons. split; [|split].
    + apply (Q_tense_app src [item_of x]); [|exact I1]. intros u i v Eu Si. destruct u as [|? [|]]; try discriminate.
      injection Eu as <- <-. destruct (item_of x); try discriminate.
    + cbn [forallb]. rewrite Sx. exact I2.
    + constructor. exact I3.
Qed.

Lemma Q_roi src A B : Q (Ktense src) (A ++ B) [] -> Q (Ktense src) (A ++ M T_PRIVATE_NUMBER_ROI :: B) [].
Proof.
  assert (I : forall x g1 g2 y, g1 <> [] -> g2 <> [] -> tense_region src x (g1 ++ g2) y ->
    tense_region src x (g1 ++ M T_PRIVATE_NUMBER_ROI :: g2) y).
  { intros x g1 g2 y N1 N2 (b & E & T). destruct g1 as [|s g1]; [contradiction|]. cbn in E. injection E as -> E.
    destruct (exists_last N2) as (g2' & e & ->). rewrite app_assoc in E. apply app_inj_tail in E. destruct E as [<- ->].
    exists (g1 ++ M T_PRIVATE_NUMBER_ROI :: g2'). split; [cbn; rewrite <- app_assoc; reflexivity|].
    rewrite filter_app in *. cbn [filter item_eqb]. exact T. }
  intros H u i v E Si. destruct (split_mid _ _ _ _ _ _ E) as [(z & -> & ->)|[(-> & -> & ->)|(z & -> & ->)]].
  - destruct (H u i (z ++ B)) as (u' & g1 & g2 & v' & -> & E' & O); [rewrite <- app_assoc; reflexivity|exact Si|].
    symmetry in E'. destruct (app_split _ _ _ _ E') as [(w & -> & ->)|(w & Nw & -> & ->)].
    + exists u', g1, g2, (w ++ M T_PRIVATE_NUMBER_ROI :: B). rewrite <- app_assoc. repeat split. exact O.
    + exists u', g1, (z ++ M T_PRIVATE_NUMBER_ROI :: w), v'. rewrite <- !app_assoc. repeat split.
      cbn [Ktense a_occ] in *. change (g1 ++ i :: z ++ M T_PRIVATE_NUMBER_ROI :: w) with (g1 ++ (i :: z) ++ M T_PRIVATE_NUMBER_ROI :: w).
      rewrite app_assoc. apply I; [destruct g1; discriminate|exact Nw|]. rewrite <- app_assoc. exact O.
  - discriminate.
  - destruct (H (A ++ z) i v) as (u' & g1 & g2 & v' & E' & -> & O); [rewrite <- app_assoc; reflexivity|exact Si|].
    destruct (app_split _ _ _ _ E') as [(w & -> & ->)|(w & Nw & -> & ->)].
    + exists (A ++ M T_PRIVATE_NUMBER_ROI :: w), g1, g2, v'. repeat split.
      * rewrite <- app_assoc. reflexivity.
      * exact O.
    + exists u', (w ++ M T_PRIVATE_NUMBER_ROI :: z), g2, v'. rewrite <- !app_assoc. repeat split.
      cbn [Ktense a_occ] in *. rewrite <- app_assoc in O. cbn [app]. apply I; auto. destruct z; discriminate.
Qed.

Lemma grows_roi src co si l out : grows (near co si false (is_tok T_PRIVATE_NUMBER_ROI)) l out ->
  Q (Ktense src) (items l) [] -> Q (Ktense src) (items out) [].
Proof.
  induction 1 as [|A m t B out Em (Hm & _) G IH]; [auto|]. intro H. apply IH. apply tok_eqb_eq in Hm. subst t.
  rewrite items_app, items_cons, (item_marker _ _ Em). apply Q_roi. rewrite <- items_app. exact H.
Qed.

(* ---------------------------------------------------------------- *)
(* skipping an ek or gihek *)

Lemma items_inv l i r : items l = i :: r -> exists x l', l = x :: l' /\ item_of x = i /\ items l' = r.
Proof. destruct l as [|x l]; [discriminate|]. rewrite items_cons. intro H. injection H as <- <-. eauto. Qed.

Lemma cm_false x t i : item_of x = i -> i <> W t -> cmtest x t = false.
Proof. intros <- N. destruct (cmtest x t) eqn:E; [|reflexivity]. apply cmtest_item in E. contradiction. Qed.

Lemma takes2 s n nb a : takes [s; n] a nb -> a = [] \/ a = [W s] \/ a = [W n] \/ a = [W s; W n].
Proof.
  intro H. inversion H as [|? ? ? ? H1|? ? ? ? H1]; subst; inversion H1 as [|? ? ? ? H2|? ? ? ? H2]; subst; inversion H2; auto.
Qed.

Lemma straddle_open_ok k T c L pre x post : ck_cores k = [(c, [T_SE; T_NA], [])] -> ck_end k = None ->
  c <> T_SE -> c <> T_NA ->
  Q (conn k T (both k)) (items L) [] -> L = rev pre ++ x :: post -> item_of x = M (ck_start k) ->
  exists a b, straddle_open (ck_start k) c (x :: post) = Ok (Some (a, b)) /\ x :: post = a ++ b /\ a <> [].
Proof.
  intros Ec Ee Nse Nna H -> Ex. rewrite items_app, items_cons, Ex in H.
  destruct (H _ _ _ eq_refl) as (u & g1 & g2 & v & E1 & E2 & O).
  { cbn [conn a_sel]. unfold both. cbn. rewrite tok_eqb_refl. reflexivity. }
  cbn [conn a_occ] in O. destruct O as (c' & ts & fs & a & b & I & Ta & Tb & E). rewrite Ec in I. destruct I as [I|[]].
  injection I as <- <- <-. assert (b = []) by (inversion Tb; reflexivity). subst b. rewrite Ee in E. cbn [app] in E.
  assert (g1 = []).
  { destruct g1 as [|s g1]; [reflexivity|]. exfalso. cbn in E. injection E as _ E.
    assert (In (M (ck_start k)) (rev a ++ [W c])) by (rewrite <- E; apply in_elt).
    apply in_app_iff in H0. destruct H0 as [K|[K|[]]]; [|discriminate]. apply in_rev in K.
    apply takes2 in Ta. destruct Ta as [->|[->|[->| ->]]]; cbn in K; intuition discriminate. }
  subst g1. cbn in E. injection E as E. rewrite E in E2. clear H E1 E g2.
  unfold straddle_open. assert (Hx : mkrtest x (ck_start k) = true) by (apply mkrtest_item; exact Ex). rewrite Hx. clear Hx.
  assert (Tail : forall (pa : list node) y q, item_of y = W c -> post = pa ++ y :: q ->
    over [T_NA; T_SE] post = (pa, y :: q) ->
    exists a0 b0, (let (a, b) := over [T_NA; T_SE] post in
      match b with
      | y :: b => if cmtest y c then let (d, e) := over [T_NAI] b in Ok (Some (x :: a ++ y :: d, e)) else Abort
      | [] => Abort end) = Ok (Some (a0, b0)) /\ x :: post = a0 ++ b0 /\ a0 <> []).
  { intros pa y q Ey Ep Eo. rewrite Eo. assert (Hy : cmtest y c = true) by (apply cmtest_item; exact Ey). rewrite Hy.
    destruct (over [T_NAI] q) as [d e] eqn:Ed. apply over_ok in Ed. destruct Ed as [-> _].
    eexists _, _. split; [reflexivity|]. split; [|discriminate]. rewrite Ep. cbn. rewrite <- app_assoc. reflexivity. }
  apply takes2 in Ta. destruct Ta as [->|[->|[->| ->]]]; cbn [rev app] in E2;
    repeat (apply items_inv in E2; destruct E2 as (? & ? & -> & ? & E2));
    (eapply Tail; [| |cbn [over]]);
    repeat match goal with
           | Hi : item_of ?y = W T_NA |- context [cmtest ?y T_NA] => rewrite (proj2 (cmtest_item y T_NA) Hi)
           | Hi : item_of ?y = W T_SE |- context [cmtest ?y T_SE] => rewrite (proj2 (cmtest_item y T_SE) Hi)
           | Hi : item_of ?y = W ?t |- context [cmtest ?y ?t'] =>
               rewrite (cm_false y t' _ Hi) by (intro K; injection K; congruence)
           end; cbn [over]; try reflexivity; try eassumption; try reflexivity.
Qed.

(* ---------------------------------------------------------------- *)
(* the note about free modifiers *)

Lemma set_free_item b x : item_of (set_free b x) = item_of x.
Proof. destruct x as [d ? ? ? ? ? ?]. unfold set_free, item_of. cbn [dat]. destruct d; reflexivity. Qed.

Lemma set_free_plain b x : plain (set_free b x) = plain x.
Proof. destruct x as [d ? ? ? ? ? ?]. unfold set_free, plain. cbn [dat]. destruct d; reflexivity. Qed.

Lemma free_items l : items (mark_cmavo_before_free l) = items l.
Proof. induction l as [|x l IH]; [reflexivity|]. cbn [mark_cmavo_before_free]. rewrite !items_cons, set_free_item, IH. reflexivity. Qed.

Lemma free_plain l : map plain (mark_cmavo_before_free l) = map plain l.
Proof. induction l as [|x l IH]; [reflexivity|]. cbn [mark_cmavo_before_free map]. rewrite set_free_plain, IH. reflexivity. Qed.

Lemma begins_free_item y : item_of y <> W T_PRIVATE_NUMBER_MAI -> begins_free y = free_word (item_of y).
Proof.
  unfold begins_free, item_of. destruct (dat y); try reflexivity. intro N. destruct selmao; try reflexivity. contradiction.
Qed.

Lemma free_ok l : Forall (fun y => item_of y <> W T_PRIVATE_NUMBER_MAI) l -> free_noted (mark_cmavo_before_free l).
Proof.
  induction l as [|x l IH]; intros F u y v s c f E Ed.
  - destruct u; discriminate.
  - inversion F as [|? ? Fx Fl]; subst. cbn [mark_cmavo_before_free] in E. destruct u as [|x' u].
    + cbn in E. injection E as Ey Ev. subst y v. destruct x as [d ? ? ? ? ? ?]. unfold set_free in Ed. cbn [dat] in Ed.
      destruct d; cbn [dat set_dat] in Ed; try discriminate. injection Ed as _ _ <-.
      destruct l as [|y l]; [reflexivity|]. cbn [mark_cmavo_before_free]. rewrite set_free_item.
      inversion Fl; subst. apply begins_free_item. assumption.
    + cbn in E. injection E as _ E. eapply IH; eauto.
Qed.

Lemma is_marker_plain x : is_marker (plain x) = is_marker x.
Proof. destruct x as [d ? ? ? ? ? ?]. unfold plain, is_marker. cbn [dat]. destruct d; reflexivity. Qed.

Lemma plain_idem x : plain (plain x) = plain x.
Proof. destruct x as [d ? ? ? ? ? ?]. unfold plain. cbn [dat]. destruct d; reflexivity. Qed.

Lemma words_plain l : words (map plain l) = words l.
Proof.
  unfold words. induction l as [|x l IH]; [reflexivity|]. cbn [map filter]. rewrite is_marker_plain.
  destruct (negb (is_marker x)); cbn [map]; rewrite IH; [rewrite plain_idem|]; reflexivity.
Qed.

Lemma mw_plain P a b : marked_with P a b -> marked_with P (map plain a) (map plain b).
Proof.
  induction 1 as [|x l l' H IH|m t l l' E Hp H IH]; cbn [map]; [constructor|constructor; exact IH|].
  eapply mw_add; [|exact Hp|exact IH]. unfold plain. rewrite E. exact E.
Qed.

Lemma mw_forall P (R : item -> Prop) a b : (forall t, R (M t)) -> marked_with P a b ->
  Forall (fun x => R (item_of x)) a -> Forall (fun x => R (item_of x)) b.
Proof.
  intros HR. induction 1 as [|x l l' H IH|m t l l' E Hp H IH]; intro F; [constructor| |].
  - inversion F; subst. constructor; auto.
  - constructor; auto. rewrite (item_marker m t E). apply HR.
Qed.
