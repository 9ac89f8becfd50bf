(* The interlinear output of parse trees: blocks. *)
From Coq Require Import String Ascii List NArith ZArith Bool Arith Lia.
From Verif Require Import Base OutModel OutSpec LayoutModel LayoutSpec LayoutProofs LayoutProofs2 LayoutProofs3 LayoutProofs4 LayoutProofs5 BlkModel BlkSpec BlkProofs.
Import TransModel(zdec).
Import ListNotations.
Open Scope list_scope.

Notation cOpen := OutModel.Open. Notation cClose := OutModel.Close. Notation cEols := OutModel.Eols. Notation cLoj := OutModel.Loj.
Notation cStartTags := OutModel.StartTags. Notation cEndTags := OutModel.EndTags. Notation cStartTag := OutModel.StartTag. Notation cTagText := OutModel.TagText.

Lemma signs_eq b : open_signs (br b) = BlkSpec.opening b /\ close_signs (br b) = BlkSpec.closing b.
Proof. destruct b; split; reflexivity. Qed.
Lemma hidden_signs b : hidden b = match BlkSpec.opening b with None => true | _ => false end /\ hidden b = match BlkSpec.closing b with None => true | _ => false end.
Proof. destruct b; split; reflexivity. Qed.

(* ---- labels ---- *)
Definition label_of (l : list call) : txt := List.concat (map label_part l).
Definition eols_of (l : list call) : N := fold_right (fun c n => match c with cEols k => (N.of_nat k + n)%N | _ => n end) 0%N l.
Lemma eols_cons c l : eols_of (c :: l) = (eols_of [c] + eols_of l)%N.
Proof. unfold eols_of. cbn [fold_right]. destruct c; lia. Qed.
Lemma groups_app os1 os2 g : groups (os1 ++ os2) g = match groups os1 g with None => None | Some (e, g1) => match groups os2 g1 with None => None | Some (e', g2) => Some (e ++ e', g2) end end.
Proof.
  revert g. induction os1 as [|o os1 IH]; intro g; cbn [app groups]; [destruct (groups os2 g) as [[e g2]|]; reflexivity |].
  destruct (group o g) as [[e g1]|]; [| reflexivity]. rewrite IH. destruct (groups os1 g1) as [[e1 g2]|]; [| reflexivity]. destruct (groups os2 g2) as [[e2 g3]|]; [| reflexivity]. rewrite app_assoc. reflexivity.
Qed.
Definition plus_part (g : grp) (t : txt) (n : N) : grp := Grp (g_loj g) (g_eng g) (g_tags g) (g_part g ++ t) (g_eols g + n) (g_first g).
Lemma plus_none g : plus_part g [] 0 = g.
Proof. destruct g. unfold plus_part. cbn. rewrite app_nil_r, N.add_0_r. reflexivity. Qed.
Lemma plus_plus g t n t' n' : plus_part (plus_part g t n) t' n' = plus_part g (t ++ t') (n + n').
Proof. unfold plus_part. cbn [g_loj g_eng g_tags g_part g_eols g_first]. rewrite <- app_assoc, N.add_assoc. reflexivity. Qed.
Lemma label_group c g : label_call c = true -> group (op_of c) g = Some ([], plus_part g (label_part c) (eols_of [c])).
Proof.
  destruct c; try discriminate; intros _; cbn [op_of group label_part eols_of fold_right]; unfold plus_part; rewrite ?app_nil_r, ?N.add_0_r; try reflexivity.
  do 3 f_equal. unfold and_space, spaced, letters, lit. rewrite <- !app_assoc. destruct brac; reflexivity.
Qed.
Lemma labels_group l g : forallb label_call l = true -> groups (map op_of l) g = Some ([], plus_part g (label_of l) (eols_of l)).
Proof.
  revert g. induction l as [|c l IH]; intros g H; cbn [map groups]; [unfold label_of; cbn; rewrite plus_none; reflexivity |]. cbn [forallb] in H. apply andb_true_iff in H. destruct H as [H1 H2].
  rewrite label_group by exact H1. rewrite IH by exact H2. rewrite plus_plus. rewrite (eols_cons c l). reflexivity.
Qed.

(* a block that takes in what is there so far *)
Definition within (g : grp) (b : block) : Prop := exists x y ts, loj b = g_loj g ++ x /\ eng b = g_eng g ++ y /\ g_part g = [] /\ tags b = g_tags g ++ ts.
Definition within_tag (g : grp) (b : block) : Prop := exists x y z ts, loj b = g_loj g ++ x /\ eng b = g_eng g ++ y /\ tags b = g_tags g ++ (g_part g ++ z) :: ts.
Lemma tags_wide b : Forall (fun t => List.length t <= wide b) (tags b).
Proof. rewrite Forall_forall. intros t I. unfold wide. apply max_in. right. right. apply in_map. exact I. Qed.
Lemma within_room g b : within g b -> small (B b) -> room g.
Proof.
  intros (x & y & ts & E1 & E2 & E3 & E4) [S1 S2]. pose proof (loj_wide b) as W1. pose proof (eng_wide b) as W2. pose proof (tags_wide b) as W3. rewrite E1, app_length in W1. rewrite E2, app_length in W2. rewrite E4 in W3, S2. rewrite app_length in S2. apply Forall_app in W3. destruct W3 as [W3 _].
  unfold room, txt in *. rewrite E3. cbn [List.length]. repeat split; try lia. eapply Forall_impl; [| exact W3]. intros t L. cbv beta in L. lia.
Qed.
Lemma within_tag_room g b : within_tag g b -> small (B b) -> room g /\ List.length (g_tags g) < 32.
Proof.
  intros (x & y & z & ts & E1 & E2 & E4) [S1 S2]. pose proof (loj_wide b) as W1. pose proof (eng_wide b) as W2. pose proof (tags_wide b) as W3. rewrite E1, app_length in W1. rewrite E2, app_length in W2. rewrite E4 in W3, S2. rewrite app_length in S2. apply Forall_app in W3. destruct W3 as [W3 W4]. apply Forall_inv in W4. rewrite app_length in W4. cbn [List.length] in S2.
  unfold room, txt in *. repeat split; try lia. eapply Forall_impl; [| exact W3]. intros t L. cbv beta in L. lia.
Qed.
Lemma empty_room g : gempty g = true -> g_part g = [] -> room g.
Proof.
  unfold gempty. intros H E. apply andb_true_iff in H. destruct H as [H H3]. apply andb_true_iff in H. destruct H as [H1 H2]. apply empty_nil in H1, H2. apply Nat.eqb_eq, length_zero_iff_nil in H3.
  unfold room. rewrite H1, H2, H3, E. cbn. repeat split; try lia. constructor.
Qed.

Lemma labels_roomy b l os g : small (B b) -> forallb label_call l = true -> within_tag (plus_part g (label_of l) (eols_of l)) b -> roomy os (plus_part g (label_of l) (eols_of l)) -> roomy (map op_of l ++ os) g.
Proof.
  intros S. revert g. induction l as [|c l IH]; intros g H W R; cbn [map app]; [unfold label_of in R; cbn in R; rewrite plus_none in R; exact R |].
  cbn [forallb] in H. apply andb_true_iff in H. destruct H as [H1 H2].
  assert (E : plus_part g (label_of (c :: l)) (eols_of (c :: l)) = plus_part (plus_part g (label_part c) (eols_of [c])) (label_of l) (eols_of l)).
  { rewrite plus_plus, (eols_cons c l). reflexivity. }
  assert (WG : within_tag g b).
  { destruct W as (x & y & z & ts & E1 & E2 & E3). cbn [plus_part g_loj g_eng g_tags g_part] in *. exists x, y, (label_of (c :: l) ++ z), ts. rewrite <- app_assoc in E3. auto. }
  destruct (within_tag_room _ _ WG S) as [RM LT]. cbn [roomy]. split; [exact RM |]. split; [auto |]. rewrite label_group by exact H1. rewrite E in R, W. exact (IH _ H2 W R).
Qed.

Fixpoint label_list (cs : list call) (l : txt) : list txt :=
  match cs with
  | [] => [l]
  | cStartTag :: cs => l :: label_list cs []
  | c :: cs => label_list cs (l ++ label_part c)
  end.
Lemma label_list_app l1 l2 p : forallb label_call l1 = true -> label_list (l1 ++ l2) p = label_list l2 (p ++ label_of l1).
Proof.
  revert p. induction l1 as [|c l1 IH]; intros p H; cbn [app]; [unfold label_of; cbn; rewrite app_nil_r; reflexivity |]. cbn [forallb] in H. apply andb_true_iff in H. destruct H as [H1 H2].
  destruct c; try discriminate H1; cbn [label_list]; rewrite IH by exact H2; unfold label_of; cbn [map List.concat]; rewrite app_assoc; reflexivity.
Qed.
Lemma label_list_real l p : full_labels l -> p <> [] -> Forall (fun t => t <> []) (label_list l p).
Proof.
  intros F. revert p. induction F as [|l l' H1 HR H2 IH]; intros p N; cbn [label_list]; [repeat constructor; exact N |]. constructor; [exact N |]. rewrite label_list_app by exact H1. apply IH.
  cbn [app]. clear - HR. unfold label_of. induction l as [|c l IH]; [discriminate HR |]. cbn [map List.concat]. cbn [existsb] in HR. apply orb_true_iff in HR. destruct HR as [R|R].
  - destruct c; try discriminate R; cbn [label_part]; [intro Q; apply (f_equal (@List.length _)) in Q; rewrite !app_length in Q; cbn in Q; lia |]. destruct s; [discriminate R | discriminate].
  - intro Q. apply app_eq_nil in Q. exact (IH R (proj2 Q)).
Qed.
Lemma label_of_real l : existsb real l = true -> label_of l <> [].
Proof.
  intro HR. unfold label_of. induction l as [|c l IH]; [discriminate HR |]. cbn [map List.concat]. cbn [existsb] in HR. apply orb_true_iff in HR. destruct HR as [R|R].
  - destruct c; try discriminate R; cbn [label_part]; [intro Q; apply (f_equal (@List.length _)) in Q; rewrite !app_length in Q; cbn in Q; lia |]. destruct s; [discriminate R | discriminate].
  - intro Q. apply app_eq_nil in Q. exact (IH R (proj2 Q)).
Qed.
(* one label after the other, and the end *)
Lemma labels_run l : full_labels l -> forall g, g_first g = false -> exists n, let g' := Grp (g_loj g) (g_eng g) (g_tags g ++ label_list l (g_part g)) [] n false in
  groups (map op_of (l ++ [cEndTags])) g = Some ([], g') /\
  forall b os, small (B b) -> within g' b -> roomy os g' -> roomy (map op_of (l ++ [cEndTags]) ++ os) g.
Proof.
  induction 1 as [|l l' H1 HR H2 IH]; intros g F.
  - exists (g_eols g). cbn [app map op_of groups group label_list]. rewrite F. split; [reflexivity |]. intros b os S W R. cbn [roomy group]. rewrite F. split; [| split; [discriminate | exact R]].
    destruct W as (x & y & ts & E1 & E2 & _ & E4). cbn [g_loj g_eng g_tags] in *. rewrite <- app_assoc in E4. cbn [app] in E4. refine (proj1 (within_tag_room g b _ S)). exists x, y, [], ts. rewrite app_nil_r. auto.
  - set (g1 := Grp (g_loj g) (g_eng g) (g_tags g ++ [g_part g]) [] (g_eols g) false). set (g2 := plus_part g1 (label_of l) (eols_of l)).
    destruct (IH g2 eq_refl) as (n & E & R). cbn [g2 g1 plus_part g_loj g_eng g_tags g_part] in E, R. exists n.
    assert (LL : g_tags g ++ label_list (cStartTag :: l ++ l') (g_part g) = (g_tags g ++ [g_part g]) ++ label_list l' (label_of l)).
    { cbn [label_list]. rewrite label_list_app by exact H1. rewrite <- app_assoc. reflexivity. }
    rewrite LL. cbn [app map op_of groups group]. rewrite F. fold g1. rewrite <- app_assoc, map_app, groups_app, labels_group by exact H1. fold g2. change ([] ++ label_of l) with (label_of l) in E, R. rewrite E. split; [reflexivity |].
    intros b os S W RO. pose proof W as (x & y & ts & E1 & E2 & _ & E4). cbn [g_loj g_eng g_tags] in E1, E2, E4.
    cbn [roomy]. split; [refine (proj1 (within_tag_room g b _ S)); exists x, y, [], (label_list l' (label_of l) ++ ts); rewrite app_nil_r, E1, E2, E4, <- !app_assoc; auto |]. split; [discriminate |].
    cbn [group]. rewrite F. fold g1. rewrite <- app_assoc. apply (labels_roomy b); [exact S | exact H1 | | exact (R b os S W RO)].
    cbn [plus_part g1 g_loj g_eng g_tags g_part app]. fold g2.
    assert (HD : exists z r, label_list l' (label_of l) = (label_of l ++ z) :: r).
    { destruct H2 as [|l2 l3 H3 H4 H5]; cbn [label_list]; exists []; eexists; rewrite app_nil_r; reflexivity. }
    destruct HD as (z & r & HD). exists x, y, z, (r ++ ts). cbn [g2 plus_part g1 g_loj g_eng g_tags g_part app]. rewrite E1, E2, E4, HD, <- !app_assoc. auto.
Qed.

(* ---- all calls ---- *)
Definition tidy (g : grp) : Prop := g_part g = [] /\ Forall (fun t => t <> []) (g_tags g).
Definition awaited (cs : list call) (g : grp) : Prop := texts g = false -> g_tags g <> [] -> opens cs = true.
Definition extends (g g' : grp) : Prop := (exists x, g_loj g' = g_loj g ++ x) /\ (exists y, g_eng g' = g_eng g ++ y) /\ (exists ts, g_tags g' = g_tags g ++ ts).
Definition own (g : grp) : block := Block (g_loj g) (g_eng g) (g_tags g).
Lemma own_block g : gempty g = false -> block_of g = [B (own g)].
Proof. unfold gempty, block_of. intros ->. reflexivity. Qed.
Lemma own_within g : g_part g = [] -> within g (own g).
Proof. intro E. exists [], [], []. rewrite !app_nil_r. auto. Qed.
Lemma extends_within g g' b : extends g g' -> g_part g = [] -> within g' b -> within g b.
Proof.
  intros ((x & E1) & (y & E2) & (ts & E3)) E (x' & y' & ts' & F1 & F2 & _ & F3). exists (x ++ x'), (y ++ y'), (ts ++ ts'). rewrite F1, F2, F3, E1, E2, E3, <- !app_assoc. auto.
Qed.
Lemma gempty_nil g : gempty g = true -> g_loj g = [] /\ g_eng g = [] /\ g_tags g = [].
Proof.
  unfold gempty. intros H. apply andb_true_iff in H. destruct H as [H H3]. apply andb_true_iff in H. destruct H as [H1 H2]. apply empty_nil in H1, H2. apply Nat.eqb_eq, length_zero_iff_nil in H3. auto.
Qed.
Lemma wide_pos b : loj b <> [] \/ eng b <> [] \/ (tags b <> [] /\ Forall (fun t => t <> []) (tags b)) -> 0 < wide b.
Proof.
  intros [H|[H|[H F]]]; [pose proof (loj_wide b) as L; destruct (loj b); [contradiction | cbn [List.length] in L; lia] | pose proof (eng_wide b) as L; destruct (eng b); [contradiction | cbn [List.length] in L; lia] |].
  pose proof (tags_wide b) as L. destruct (tags b) as [|t ts]; [contradiction |]. apply Forall_inv in L, F. destruct t; [contradiction |]. cbn [List.length] in L. lia.
Qed.
Lemma block_solid g : tidy g -> Forall solid (block_of g).
Proof.
  intros [_ F]. destruct (gempty g) eqn:E; [destruct (gempty_block g E) as [-> _]; constructor |]. rewrite (own_block g E). repeat constructor. cbn [solid]. apply wide_pos. cbn [own loj eng tags].
  unfold gempty in E. destruct (g_loj g); [| left; discriminate]. destruct (g_eng g); [| right; left; discriminate]. destruct (g_tags g); [discriminate E |]. right. right. split; [discriminate | exact F].
Qed.
Lemma block_tags g : List.concat (map tags_of (block_of g)) = g_tags g.
Proof.
  destruct (gempty g) eqn:E; [destruct (gempty_block g E) as [-> _]; rewrite (proj2 (proj2 (gempty_nil g E))); reflexivity |]. rewrite (own_block g E). cbn. apply app_nil_r.
Qed.
Lemma rest_solid g : Forall solid (rest_of g).
Proof. unfold rest_of. destruct (N.ltb 0 _); repeat constructor. Qed.
Lemma rest_tags g : List.concat (map tags_of (rest_of g)) = [].
Proof. unfold rest_of. destruct (N.ltb 0 _); reflexivity. Qed.
Lemma cleared_part g : g_part g = [] -> g_part (cleared g) = [].
Proof. intro E. unfold cleared. destruct (_ && _ && _); [exact E | reflexivity]. Qed.
Lemma gempty_in g e : gempty g = true \/ In (B (own g)) (block_of g ++ e).
Proof. destruct (gempty g) eqn:E; [left; reflexivity | right; rewrite (own_block g E); left; reflexivity]. Qed.
Lemma spaced_nonempty t : spaced t <> [].
Proof. unfold spaced. intro Q. apply app_eq_nil in Q. discriminate (proj2 Q). Qed.

Lemma texts_signs x sub g : texts (signs x sub g) = true.
Proof. destruct x as [[a1 a2] a3]. unfold texts, signs. cbn [g_loj]. destruct (spaced (lit a1)) eqn:Q; [exfalso; exact (spaced_nonempty _ Q) | reflexivity]. Qed.
(* what a bracket, a word or a translation does *)
Lemma plain_group c cs g : plain_call c = true -> tidy g -> awaited (c :: cs) g -> exists e g', group (op_of c) g = Some (e, g') /\
  Forall solid e /\ tidy g' /\ awaited cs g' /\ writes_tag (op_of c) = false /\
  List.concat (map tags_of e) ++ g_tags g' = g_tags g ++ match sign c, c with Some (_, _, a), (cOpen _ n | cClose _ n) => [and_space a; and_space (zdec (Z.of_nat n))] | _, _ => [] end /\
  (gempty g = true \/ In (B (own g)) e \/ extends g g').
Proof.
  intros P [TP TT] AW. destruct c as [b n|b n|n|s|s| | | |q1 q2 q3 q4|s]; try discriminate P; cbn [op_of group sign].
  - rewrite (proj1 (signs_eq b)). pose proof (proj1 (hidden_signs b)) as HH. destruct (BlkSpec.opening b) as [[[a1 a2] a3]|].
    + rewrite (cleared_part g TP). cbn [empty]. eexists _, _. split; [reflexivity |]. split; [apply Forall_app; split; [apply block_solid; split; assumption | apply rest_solid] |].
      split; [split; [reflexivity | cbn [signs g_tags]; repeat constructor; apply spaced_nonempty] |]. split; [intro X; rewrite texts_signs in X; discriminate X |]. split; [reflexivity |].
      split; [rewrite map_app, concat_app, block_tags, rest_tags, app_nil_r; reflexivity |]. destruct (gempty_in g (rest_of g)); auto.
    + exists [], g. split; [reflexivity |]. split; [constructor |]. split; [split; assumption |]. split; [intros X Y; specialize (AW X Y); cbn [opens] in AW; rewrite HH in AW; exact AW |]. split; [reflexivity |]. split; [rewrite app_nil_r; reflexivity |]. right. right. repeat split; exists []; rewrite app_nil_r; reflexivity.
  - rewrite (proj2 (signs_eq b)). pose proof (proj2 (hidden_signs b)) as HH. destruct (BlkSpec.closing b) as [[[a1 a2] a3]|].
    + destruct (texts g) eqn:TX.
      * eexists _, _. split; [reflexivity |]. split; [apply block_solid; split; assumption |].
        split; [split; [reflexivity | cbn [signs g_tags]; repeat constructor; apply spaced_nonempty] |]. split; [intro X; rewrite texts_signs in X; discriminate X |]. split; [reflexivity |].
        split; [rewrite block_tags; reflexivity |]. destruct (gempty_in g []) as [G|G]; [auto | rewrite app_nil_r in G; auto].
      * assert (GT : g_tags g = []).
        { destruct (g_tags g) eqn:GT; [reflexivity |]. exfalso. assert (X : opens (cClose b n :: cs) = true) by (apply AW; [exact TX | rewrite GT; discriminate]). cbn [opens] in X. rewrite HH in X. discriminate X. }
        rewrite GT, TP. cbn [List.length Nat.eqb empty andb]. eexists _, _. split; [reflexivity |]. split; [constructor |].
        split; [split; [reflexivity | cbn [signs g_tags]; repeat constructor; apply spaced_nonempty] |]. split; [intro X; rewrite texts_signs in X; discriminate X |]. split; [reflexivity |].
        split; [reflexivity |]. left. unfold gempty. rewrite GT. unfold texts in TX. apply orb_false_iff in TX. destruct TX as [X1 X2]. apply negb_false_iff in X1, X2. rewrite X1, X2. reflexivity.
    + exists [], g. split; [reflexivity |]. split; [constructor |]. split; [split; assumption |]. split; [intros X Y; specialize (AW X Y); cbn [opens] in AW; rewrite HH in AW; exact AW |]. split; [reflexivity |]. split; [rewrite app_nil_r; reflexivity |]. right. right. repeat split; exists []; rewrite app_nil_r; reflexivity.
  - eexists _, _. split; [reflexivity |]. split; [constructor |]. split; [split; assumption |]. split; [intros X Y; exact (AW X Y) |]. split; [reflexivity |]. split; [rewrite app_nil_r; reflexivity |]. right. right. repeat split; exists []; rewrite app_nil_r; reflexivity.
  - destruct (empty (g_eng g)) eqn:EE.
    + eexists _, _. split; [reflexivity |]. split; [apply rest_solid |]. split; [split; assumption |]. split; [intros X _; exfalso; cbn [g_loj texts rested] in X; unfold texts in X; cbn [g_loj] in X; destruct (spaced _) eqn:Q in X; [exact (spaced_nonempty _ Q) | discriminate X] |]. split; [reflexivity |].
      split; [cbn [app]; rewrite rest_tags, app_nil_r; reflexivity |]. right. right. cbn [extends g_loj g_eng g_tags rested]. repeat split; [exists (lit s ++ lit " "); unfold spaced; rewrite app_assoc; reflexivity | exists []; rewrite app_nil_r; reflexivity | exists []; rewrite app_nil_r; reflexivity].
    + eexists _, _. split; [reflexivity |]. split; [apply Forall_app; split; [apply block_solid; split; assumption | apply rest_solid] |].
      split; [split; [cbn [g_part rested]; apply cleared_part; exact TP | cbn [g_tags rested]; rewrite cleared_tags; constructor] |]. split; [intros _ X; exfalso; cbn [g_tags rested] in X; rewrite cleared_tags in X; exact (X eq_refl) |]. split; [reflexivity |].
      split; [rewrite map_app, concat_app, block_tags, rest_tags; cbn [g_tags rested]; rewrite cleared_tags, !app_nil_r; reflexivity |]. destruct (gempty_in g (rest_of (cleared g))); auto.
  - eexists _, _. split; [reflexivity |]. split; [constructor |]. split; [split; assumption |]. split; [| split; [reflexivity |]].
    + intros X Y. apply AW; [| exact Y]. unfold texts in *. cbn [g_loj g_eng] in X. apply orb_false_iff in X. destruct X as [X1 X2]. rewrite X1. cbn. apply negb_false_iff, empty_nil in X2. apply negb_false_iff. destruct (dollar (lit s)); [apply app_eq_nil in X2; rewrite (proj1 X2); reflexivity | exfalso; exact (spaced_nonempty _ X2)].
    + split; [rewrite app_nil_r; reflexivity |]. right. right. cbn [extends g_loj g_eng g_tags]. repeat split; [exists []; rewrite app_nil_r; reflexivity | | exists []; rewrite app_nil_r; reflexivity]. destruct (dollar (lit s)); [eexists; reflexivity |]. exists (lit s ++ lit " "). unfold spaced. rewrite app_assoc. reflexivity.
Qed.
