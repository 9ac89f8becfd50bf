From Coq Require Import String List NArith Bool Arith Lia.
From Verif Require Import Base TokData TokModel ErasureProofs DfaModel DfaSpec NfaData CategModel CategSpec.
From Verif Require Import CategProofs CategProofs2 CategProofs3 CategProofs4 CategProofs5 AheadSpec.
Import ListNotations.
Open Scope N_scope.
Open Scope list_scope.

Lemma core_app a b : core (a ++ b) = core a ++ core b.
Proof. apply filter_app. Qed.
Lemma core_cons i l : counts i = true -> core (i :: l) = i :: core l.
Proof. intro H. unfold core. cbn [filter]. rewrite H. reflexivity. Qed.
Lemma core_skip i l : counts i = false -> core (i :: l) = core l.
Proof. intro H. unfold core. cbn [filter]. rewrite H. reflexivity. Qed.
Lemma core_in i l : In i (core l) -> In i l.
Proof. intro H. apply filter_In in H. apply H. Qed.
Lemma core_rev l : core (rev l) = rev (core l).
Proof.
  induction l as [|i l IH]; [reflexivity|]. cbn [rev]. rewrite core_app, IH. unfold core at 2 3. cbn [filter].
  destruct (counts i); cbn [rev]; [reflexivity|apply app_nil_r].
Qed.

(* ---- the shapes ---- *)

Lemma first_split {A} (e : A) : forall a r a' r', a ++ e :: r = a' ++ e :: r' -> ~ In e a -> ~ In e a' -> a = a' /\ r = r'.
Proof.
  induction a as [|x a IH]; intros r [|x' a'] r' H N N'; cbn in H.
  - injection H as ->. auto.
  - injection H as -> _. exfalso. apply N'. left. reflexivity.
  - injection H as -> _. exfalso. apply N. left. reflexivity.
  - injection H as -> H. destruct (IH _ _ _ H) as [-> ->]; auto; intro; [apply N|apply N']; right; assumption.
Qed.

Lemma stretch_det s e l r r' : stretch s e l r -> stretch s e l r' -> r = r'.
Proof.
  intros [a q N] H'. remember (M s :: a ++ M e :: q) as k eqn:Ek. destruct H' as [a' q' N']. injection Ek as E.
  symmetry. apply (first_split _ _ _ _ _ E); assumption.
Qed.

Lemma stretch_head s e l r : stretch s e l r -> exists q, l = M s :: q.
Proof. intros [a q _]. eauto. Qed.

Lemma link_det l r r' : link l r -> link l r' -> r = r'.
Proof.
  intros [H|H] [H'|H']; try (eapply stretch_det; eassumption);
    apply stretch_head in H; apply stretch_head in H'; destruct H as [q ->], H' as [q' H']; discriminate.
Qed.

Lemma tags_head l r : tags l r -> exists q, l = M T_PRIVATE_START_TENSE :: q.
Proof. intros [? ? H|? ? ? ? H _ _]; apply stretch_head in H; exact H. Qed.

Lemma link_head l r : link l r -> exists q, l = M T_PRIVATE_START_JEK :: q \/ l = M T_PRIVATE_START_JOIK :: q.
Proof. intros [H|H]; apply stretch_head in H; destruct H as [q ->]; eauto. Qed.

Lemma tags_det l w r : tags l (W w :: r) -> forall w' r', tags l (W w' :: r') -> w = w'.
Proof.
  intro H. remember (W w :: r) as q. induction H as [l q H|l r1 r2 q H L H' IH]; intros w' r' K; subst q.
  - inversion K as [? ? S|? r1 r2 ? S L T]; subst.
    + assert (X := stretch_det _ _ _ _ _ H S). congruence.
    + assert (X := stretch_det _ _ _ _ _ H S). subst r1. apply link_head in L. destruct L as [? [L|L]]; discriminate.
  - inversion K as [? ? S|? r3 r4 ? S L' T]; subst; assert (X := stretch_det _ _ _ _ _ H S); subst.
    + apply link_head in L. destruct L as [? [L|L]]; discriminate.
    + rewrite (link_det _ _ _ L' L) in T. eauto.
Qed.

Lemma leads_det w w' l : leads w l -> leads w' l -> w = w'.
Proof.
  intros [(r & E)|(r & H)] [(r' & E')|(r' & H')].
  - congruence.
  - apply tags_head in H'. destruct H' as [q H']. subst. discriminate.
  - apply tags_head in H. destruct H as [q H]. subst. discriminate.
  - eapply tags_det; eassumption.
Qed.

(* ---- one marker at a place ---- *)

(* the item a marker stands before *)
Definition before_item (t : tok) (i : item) : bool :=
  match t with
  | T_PRIVATE_I_BO | T_PRIVATE_I_JEKJOIK => item_eqb i (W T_I)
  | T_PRIVATE_JEK_BO | T_PRIVATE_JEK_KE => item_eqb i (M T_PRIVATE_START_JEK)
  | T_PRIVATE_JOIK_BO | T_PRIVATE_JOIK_KE => item_eqb i (M T_PRIVATE_START_JOIK)
  | T_PRIVATE_EK_BO | T_PRIVATE_EK_KE => item_eqb i (M T_PRIVATE_START_EK)
  | T_PRIVATE_GIHEK_BO | T_PRIVATE_GIHEK_KE => item_eqb i (M T_PRIVATE_START_GIHEK)
  | T_PRIVATE_NUMBER_MAI | T_PRIVATE_NUMBER_ROI | T_PRIVATE_NUMBER_MOI => numeral i
  | T_PRIVATE_NAhE_BO => item_eqb i (W T_NAhE)
  | T_PRIVATE_NA_KU => item_eqb i (W T_NA)
  | _ => false
  end.

Lemma number_then_head w p i l : number_then w p (i :: l) -> numeral i = true.
Proof.
  intros (_ & a & r & E & N & F). destruct a as [|x a]; [contradiction|]. injection E as -> _. cbn in F.
  apply andb_true_iff in F. apply F.
Qed.

Lemma link_then_head s e w p i l : link_then s e w p (i :: l) -> i = M s.
Proof. intros (_ & _ & r & H & _). apply stretch_head in H. destruct H as [q H]. congruence. Qed.
Lemma conn_then_head s c w i l : conn_then s c w (i :: l) -> i = M s.
Proof. intros (a & r & H & _). congruence. Qed.
Lemma pair_head a b i l : pair a b (i :: l) -> i = W a.
Proof. intros (r & H). congruence. Qed.
Lemma i_bo_head i l : i_bo (i :: l) -> i = W T_I.
Proof. intros (r & H & _). congruence. Qed.
Lemma i_link_head i l : i_link (i :: l) -> i = W T_I.
Proof. intros ((r & [H|H]) & _); congruence. Qed.

Lemma stands_before t p i l : stands t p (i :: l) -> before_item t i = true.
Proof.
  destruct t; cbn [stands before_item]; try contradiction; intro H;
    first [ apply number_then_head in H; exact H | apply link_then_head in H; subst i; reflexivity
          | apply conn_then_head in H; subst i; reflexivity | apply pair_head in H; subst i; reflexivity
          | apply i_bo_head in H; subst i; reflexivity | apply i_link_head in H; subst i; reflexivity ].
Qed.

Lemma number_then_det w w' p l : number_then w p l -> number_then w' p l ->
  numeral (W w) = false -> numeral (W w') = false -> w = w'.
Proof.
  intros (_ & a & r & -> & _ & F) (_ & a' & r' & E & _ & F') N N'. revert a' E F'. induction a as [|x a IH]; intros [|x' a'] E F'.
  - injection E as -> _. reflexivity.
  - injection E as E0 E. subst x'. cbn [forallb] in F'. rewrite N in F'. discriminate.
  - injection E as E0 E. subst x. cbn [forallb] in F. rewrite N' in F. discriminate.
  - injection E as -> E. cbn [forallb] in F, F'. apply andb_true_iff in F. apply andb_true_iff in F'.
    apply (IH (proj2 F) a' E (proj2 F')).
Qed.

Lemma link_then_det s e w w' p l : link_then s e w p l -> link_then s e w' p l -> w = w'.
Proof.
  intros (_ & _ & r & H & D) (_ & _ & r' & H' & D'). rewrite (stretch_det _ _ _ _ _ H H') in D. eapply leads_det; eassumption.
Qed.

Lemma leads_nai w l : ~ leads w (W T_NAI :: l) \/ w = T_NAI.
Proof.
  destruct (tok_eqb w T_NAI) eqn:E; [right; apply tok_eqb_eq; exact E|left]. intros [(r & H)|(r & H)].
  - injection H as <- _. rewrite tok_eqb_refl in E. discriminate.
  - apply tags_head in H. destruct H as [q H]. discriminate.
Qed.

Lemma conn_then_det s c w w' l : conn_then s c w l -> conn_then s c w' l -> w <> T_NAI -> w' <> T_NAI -> w = w'.
Proof.
  intros (a & r & -> & N & D) (a' & r' & E & N' & D') Nw Nw'. injection E as E.
  destruct (first_split _ _ _ _ _ E N N') as [<- <-].
  destruct D as [D|(q & -> & D)], D' as [D'|(q' & E' & D')].
  - eapply leads_det; eassumption.
  - subst r. destruct (leads_nai w q'); contradiction.
  - destruct (leads_nai w' q); contradiction.
  - injection E' as <-. eapply leads_det; eassumption.
Qed.

Lemma stands_det t t' p i l : stands t p (i :: l) -> stands t' p (i :: l) -> t = t'.
Proof.
  intros H H'. assert (B := stands_before _ _ _ _ H). assert (B' := stands_before _ _ _ _ H').
  assert (E : forall j, item_eqb i j = true -> i = j).
  { intros j. destruct i, j; try discriminate; cbn; intro X; try reflexivity; apply tok_eqb_eq in X; congruence. }
  destruct t; cbn [before_item] in B; try discriminate B; try (apply E in B; subst i);
    destruct t'; cbn [before_item] in B'; try discriminate B'; try reflexivity; exfalso; try (apply E in B'; subst i);
    cbn [numeral] in *; try discriminate; cbn [stands] in H, H';
    first [ destruct H as [_ H]; contradiction | destruct H' as [_ H']; contradiction
          | assert (X := link_then_det _ _ _ _ _ _ H H'); discriminate
          | assert (X := conn_then_det _ _ _ _ _ H H' ltac:(discriminate) ltac:(discriminate)); discriminate
          | assert (X := number_then_det _ _ _ _ H H' eq_refl eq_refl); discriminate ].
Qed.
