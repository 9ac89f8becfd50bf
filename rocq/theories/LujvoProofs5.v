(* The lujvo maker: the word and the score of a candidate. *)
From Coq Require Import String Ascii List NArith ZArith Bool Arith Lia.
From Verif Require Import Base LujvoData LujvoModel LujvoSpec LujvoProofs LujvoProofs2 LujvoProofs3 LujvoProofs4.
Import ListNotations.
Open Scope list_scope.

Lemma parts_form l : parts l -> Forall (fun x => form (fst x) (snd x)) l.
Proof. induction 1; constructor; auto. Qed.
Definition tail_glue (rs : list cword) : list glue := glue_fours rs (glue_pairs rs (repeat None (List.length rs))).
Fixpoint ys (l : list part) : list glue :=
  match l with
  | [] => []
  | [x] => [None]
  | x :: ((y :: _) as l) => y_glue (y_between x y) :: ys l
  end.
Lemma gp_cons r0 r1 rs g0 g : glue_pairs (r0 :: r1 :: rs) (g0 :: g) =
  match g0 with None => if can_join r0 r1 then None else Some "y"%char | _ => g0 end :: glue_pairs (r1 :: rs) g.
Proof. reflexivity. Qed.
Lemma gf_cons r0 r1 rs g0 g : glue_fours (r0 :: r1 :: rs) (g0 :: g) = (if is_four r0 then Some "y"%char else g0) :: glue_fours (r1 :: rs) g.
Proof. reflexivity. Qed.
Lemma ys_cons x y l : ys (x :: y :: l) = y_glue (y_between x y) :: ys (y :: l).
Proof. reflexivity. Qed.
Lemma tail_glue_ys l : parts l -> tail_glue (map snd l) = ys l.
Proof.
  unfold tail_glue. induction 1 as [k p Hk F | k p l Hk F P IH]; [reflexivity|].
  destruct l as [|[k' p'] l]; [inversion P|].
  change (map snd ((k, p) :: (k', p') :: l)) with (p :: p' :: map snd l).
  change (repeat None (List.length (p :: p' :: map snd l))) with (@None ascii :: repeat None (List.length (p' :: map snd l))).
  rewrite gp_cons, gf_cons, ys_cons. f_equal.
  - rewrite <- (joint k p k' p' Hk F) by (inversion P; assumption).
    destruct (is_four p); [reflexivity|]. destruct (can_join p p'); reflexivity.
  - exact IH.
Qed.
Lemma concat_ys l : l <> [] -> concat_glue (map snd l) (ys l) = joined l.
Proof.
  induction l as [|x l IH]; [congruence|]. intros _. destruct l as [|y l]; [reflexivity|].
  rewrite ys_cons, joined_cons, <- IH by discriminate.
  change (concat_glue (map snd (x :: y :: l)) (y_glue (y_between x y) :: ys (y :: l)))
    with (snd x ++ glued (y_glue (y_between x y)) ++ concat_glue (map snd (y :: l)) (ys (y :: l))).
  destruct (y_between x y); reflexivity.
Qed.
(* all glue, given what the first joint got from line 837-862 *)
Lemma glue_first g0 k p k' p' l : medial k = true -> form k p -> parts ((k', p') :: l) ->
  glue_fours (p :: p' :: map snd l) (glue_pairs (p :: p' :: map snd l) (g0 :: repeat None (S (List.length (map snd l)))))
  = (if is_four p then Some "y"%char else match g0 with None => y_glue (negb (can_join p p')) | _ => g0 end) :: ys ((k', p') :: l).
Proof.
  intros Hk F P. rewrite gp_cons, gf_cons. f_equal.
  - destruct (is_four p); auto. destruct g0; auto. destruct (can_join p p'); reflexivity.
  - exact (tail_glue_ys _ P).
Qed.

Lemma cvv_forms k p : form k p -> medial k = true -> is_cvv p || is_cvav p = match k with CVV | CVhV => true | _ => false end.
Proof.
  destruct 1; intros Hk; try discriminate Hk; know; unfold is_cvv, is_cvav, C, V; red_at; use; rewrite ?Ascii.eqb_refl; cbn [andb orb]; try reflexivity;
  destruct apos_not as [? [? [? [? ?]]]]; use; reflexivity.
Qed.
Lemma ccv_forms k p : form k p -> negb (is_ccv p) || is_ccvcv p = true -> k <> CCV.
Proof.
  destruct 1; intros H' K; try discriminate K. know. unfold is_ccv, is_ccvcv, C, V in H'. red_at.
  rewrite L0 in * || idtac. revert H'. use. cbn. discriminate.
Qed.
Lemma ccv_forms' k p : final k = true -> form k p -> negb (is_ccv p) || is_ccvcv p = false -> k = CCV.
Proof.
  intros Hk F. destruct F; try discriminate Hk; know; unfold is_ccv, is_ccvcv, C, V; red_at; use; cbn [andb orb negb]; try discriminate; try reflexivity;
  destruct apos_not as [? [? [? [? ?]]]]; use; discriminate.
Qed.
Lemma cvc_forms k p : form k p -> medial k = true -> is_cvc p = match k with CVC | CVCC => true | _ => false end.
Proof.
  destruct 1; intros Hk; try discriminate Hk; know; unfold is_cvc, C, V; red_at; use; cbn [andb]; try reflexivity;
  destruct apos_not as [? [? [? [? ?]]]]; use; reflexivity.
Qed.
Lemma rn_hyphen k p : form k p -> rn p = Some (hyphen_rn (k, p)).
Proof. intros F. destruct (final_or_medial_head _ _ F) as [a [b [E0 [_ [L0 _]]]]]. unfold rn, hyphen_rn. cbn [snd]. now rewrite E0, L0. Qed.
Lemma at_letter p i : (i < List.length p)%nat -> at_ p i = letter p i.
Proof. intros. unfold at_, letter. now apply nth_indep. Qed.

Definition hyphenated (l : list part) (g : list glue) : Prop :=
  exists g0, g = g0 :: ys (tl l) /\ (g0 = None \/ g0 = Some "y"%char \/ g0 = Some "r"%char \/ g0 = Some "n"%char).
Lemma glues_lujvo l : parts l -> (2 <= List.length l)%nat ->
  exists g, glues (map snd l) = Ok g /\ lujvo l (concat_glue (map snd l) g) /\ hyphenated l g.
Proof.
  intros P Len. destruct l as [|[k p] [|[k' p'] l]]; cbn [List.length] in Len; try lia.
  destruct (parts_uncons _ _ _ P) as [Hk [F P']]. cbn [fst snd] in Hk, F.
  assert (F' : form k' p') by (inversion P'; assumption).
  unfold glues. cbn [map snd]. cbn [glue_rn]. rewrite (cvv_forms k p F Hk).
  pose proof (joint k p k' p' Hk F F') as J.
  assert (Cat : forall g0, concat_glue (p :: p' :: map snd l) (g0 :: ys ((k', p') :: l)) = p ++ glued g0 ++ joined ((k', p') :: l)).
  { intros g0. cbn [concat_glue]. rewrite <- (concat_ys ((k', p') :: l)) by discriminate. reflexivity. }
  assert (Hyp : forall g0, (g0 = None \/ g0 = Some "y"%char \/ g0 = Some "r"%char \/ g0 = Some "n"%char) -> hyphenated ((k, p) :: (k', p') :: l) (g0 :: ys ((k', p') :: l))).
  { intros g0 H. exists g0. auto. }
  assert (HypY : forall b, y_glue b = None \/ y_glue b = Some "y"%char \/ y_glue b = Some "r"%char \/ y_glue b = Some "n"%char).
  { intros []; auto. }
  assert (HypR : rn p' = None \/ rn p' = Some "y"%char \/ rn p' = Some "r"%char \/ rn p' = Some "n"%char).
  { unfold rn. destruct (ceq _ _); auto. }
  assert (Plain : forall g0, g0 = None -> k = CCV \/ k = CCVC \/ k = CVCC ->
     glue_fours (p :: p' :: map snd l) (glue_pairs (p :: p' :: map snd l) (g0 :: repeat None (S (List.length (map snd l)))))
      = y_glue (y_between (k, p) (k', p')) :: ys ((k', p') :: l)).
  { intros g0 -> _. rewrite (glue_first None k p k' p' l Hk F P'), <- J. destruct (is_four p); reflexivity. }
  assert (PlainJ : forall g, k = CCV \/ k = CCVC \/ k = CVCC -> g = y_glue (y_between (k, p) (k', p')) :: ys ((k', p') :: l) ->
     lujvo ((k, p) :: (k', p') :: l) (concat_glue (p :: p' :: map snd l) g)).
  { intros g Hk' ->. rewrite Cat.
    replace (p ++ glued (y_glue (y_between (k, p) (k', p'))) ++ joined ((k', p') :: l)) with (joined ((k, p) :: (k', p') :: l)); [now constructor|].
    rewrite joined_cons. cbn [snd]. destruct (y_between (k, p) (k', p')); reflexivity. }
  destruct k; try discriminate Hk.
  - (* CVC *)
    assert (E0 : glue_fours (p :: p' :: map snd l) (glue_pairs (p :: p' :: map snd l) (None :: repeat None (S (List.length (map snd l)))))
      = y_glue (y_between (CVC, p) (k', p')) :: ys ((k', p') :: l)).
    { rewrite (glue_first None CVC p k' p' l Hk F P'), <- J. destruct (is_four p); reflexivity. }
    rewrite !andb_false_r. cbn [andb]. rewrite E0.
    unfold glue_tosmabru. destruct (y_between (CVC, p) (k', p')) eqn:Ey; cbn [y_glue].
    + eexists. split; [reflexivity|]. split; [|apply (Hyp (Some "y"%char)); auto]. rewrite Cat. constructor. now left.
    + rewrite (cvc_forms CVC p F Hk).
      inversion F; subst. destruct (lax_head _ (parts_parts_lax _ P')) as [x [y [z [r [E [Hx [Hy _]]]]]]].
      assert (Ec : concat_glue (p' :: map snd l) (ys ((k', p') :: l)) = joined ((k', p') :: l)).
      { rewrite <- (concat_ys ((k', p') :: l)) by discriminate. reflexivity. }
      change (at_ [a; v; b] 2) with b.
      destruct (alone b x (y :: z :: r) (S (List.length (b :: joined ((k', p') :: l))))) as [s [Es Hs]]; auto.
      { apply smalls_intro; [know; assumption|]. rewrite <- E. apply lax_smalls. now apply parts_parts_lax. }
      { cbn [List.length]. lia. }
      { rewrite E. cbn [List.length]. lia. }
      unfold is_valid_lujvo. rewrite Ec. rewrite E in Es |- *. rewrite Es. cbn [obind].
      destruct s.
      * eexists. split; [reflexivity|]. split; [|apply (Hyp (Some "y"%char)); auto]. rewrite Cat. constructor. right.
        change (letter [a; v; b] 2) with b. apply own_strict; auto. rewrite E. now apply Hs.
      * eexists. split; [reflexivity|]. split; [|apply (Hyp None); auto]. rewrite Cat. apply l_cvc; auto.
        change (letter [a; v; b] 2) with b. intros K. apply own_strict in K; auto. rewrite E in K. apply Hs in K. discriminate K.
  - (* CCV *)
    rewrite !andb_false_r. cbn [andb]. rewrite (Plain None eq_refl) by auto.
    exists (y_glue (y_between (CCV, p) (k', p')) :: ys ((k', p') :: l)). split; [|split; [apply PlainJ; auto | apply Hyp, HypY]].
    unfold glue_tosmabru. rewrite (cvc_forms CCV p F Hk). destruct (y_glue _); reflexivity.
  - (* CVV *)
    assert (Four : is_four p = false) by (inversion F; subst; reflexivity).
    destruct (match map snd l with [] => true | _ => false end) eqn:El.
    + cbn [negb andb]. destruct l as [|]; [|discriminate El]. cbn [map snd]. cbn [map snd] in Cat.
      destruct (negb (is_ccv p') || is_ccvcv p') eqn:Ec.
      * pose proof (glue_first (rn p') CVV p k' p' [] Hk F P') as G; cbn [map List.length] in G |- *; rewrite G; clear G.
        exists (rn p' :: ys ((k', p') :: [])). split; [|split; [|apply (Hyp (rn p')), HypR]].
        { unfold glue_tosmabru. rewrite Four, (rn_hyphen k' p' F'). reflexivity. }
        rewrite Cat, (rn_hyphen k' p' F'). cbn [glued]. constructor; auto. left. cbn [fst]. now apply ccv_forms with p'.
      * assert (Fin : final k' = true) by (inversion P'; [assumption | match goal with K : parts [] |- _ => inversion K end]).
        assert (k' = CCV) by now apply ccv_forms' with p'. subst k'.
        pose proof (glue_first None CVV p CCV p' [] Hk F P') as G; cbn [map List.length] in G |- *; rewrite G; clear G.
        assert (E0 : (if is_four p then Some "y"%char else y_glue (negb (can_join p p'))) = None).
        { destruct (is_four p); cbn in J; [discriminate J | rewrite J; reflexivity]. }
        rewrite E0. exists (None :: ys [(CCV, p')]). split; [|split; [|apply (Hyp None); auto]].
        { unfold glue_tosmabru. now rewrite (cvc_forms CVV p F Hk). }
        rewrite Cat. cbn [glued app joined snd]. now constructor; left.
    + cbn [negb andb]. rewrite (glue_first (rn p') CVV p k' p' l Hk F P').
      exists (rn p' :: ys ((k', p') :: l)). split; [|split; [|apply (Hyp (rn p')), HypR]].
      { unfold glue_tosmabru. rewrite Four, (rn_hyphen k' p' F'). reflexivity. }
      rewrite Cat, (rn_hyphen k' p' F'). cbn [glued]. constructor; auto. right. destruct l; discriminate || (cbn in El; discriminate).
  - (* CVhV *)
    assert (Four : is_four p = false).
    { inversion F; subst. unfold is_four. cbn [List.length Nat.eqb at_ nth andb]. rewrite Ascii.eqb_refl. reflexivity. }
    destruct (match map snd l with [] => true | _ => false end) eqn:El.
    + cbn [negb andb]. destruct l as [|]; [|discriminate El]. cbn [map snd]. cbn [map snd] in Cat.
      destruct (negb (is_ccv p') || is_ccvcv p') eqn:Ec.
      * pose proof (glue_first (rn p') CVhV p k' p' [] Hk F P') as G; cbn [map List.length] in G |- *; rewrite G; clear G.
        exists (rn p' :: ys ((k', p') :: [])). split; [|split; [|apply (Hyp (rn p')), HypR]].
        { unfold glue_tosmabru. rewrite Four, (rn_hyphen k' p' F'). reflexivity. }
        rewrite Cat, (rn_hyphen k' p' F'). cbn [glued]. constructor; auto. left. cbn [fst]. now apply ccv_forms with p'.
      * assert (Fin : final k' = true) by (inversion P'; [assumption | match goal with K : parts [] |- _ => inversion K end]).
        assert (k' = CCV) by now apply ccv_forms' with p'. subst k'.
        pose proof (glue_first None CVhV p CCV p' [] Hk F P') as G; cbn [map List.length] in G |- *; rewrite G; clear G.
        rewrite Four in J |- *. rewrite J. exists (None :: ys [(CCV, p')]). split; [|split; [|apply (Hyp None); auto]].
        { unfold glue_tosmabru. now rewrite (cvc_forms CVhV p F Hk). }
        rewrite Cat. cbn [glued app joined snd]. now constructor; right.
    + cbn [negb andb]. rewrite (glue_first (rn p') CVhV p k' p' l Hk F P').
      exists (rn p' :: ys ((k', p') :: l)). split; [|split; [|apply (Hyp (rn p')), HypR]].
      { unfold glue_tosmabru. rewrite Four, (rn_hyphen k' p' F'). reflexivity. }
      rewrite Cat, (rn_hyphen k' p' F'). cbn [glued]. constructor; auto. right. destruct l; discriminate || (cbn in El; discriminate).
  - (* CVCC *)
    rewrite !andb_false_r. cbn [andb]. rewrite (Plain None eq_refl) by auto.
    exists (y_glue (y_between (CVCC, p) (k', p')) :: ys ((k', p') :: l)). split; [|split; [apply PlainJ; auto | apply Hyp, HypY]].
    unfold glue_tosmabru. reflexivity.
  - (* CCVC *)
    rewrite !andb_false_r. cbn [andb]. rewrite (Plain None eq_refl) by auto.
    exists (y_glue (y_between (CCVC, p) (k', p')) :: ys ((k', p') :: l)). split; [|split; [apply PlainJ; auto | apply Hyp, HypY]].
    unfold glue_tosmabru. reflexivity.
Qed.
