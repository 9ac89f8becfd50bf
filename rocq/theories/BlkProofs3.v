(* The interlinear output of parse trees: every run makes blocks. *)
From Coq Require Import String Ascii List NArith ZArith Bool Arith Lia.
From Verif Require Import Base OutModel OutSpec LayoutModel LayoutSpec LayoutProofs LayoutProofs2 LayoutProofs3 LayoutProofs4 LayoutProofs5 BlkModel BlkSpec BlkProofs BlkProofs2.
Import TransModel(zdec).
Import ListNotations.
Open Scope list_scope.

Lemma label_rows_labels l r p : forallb label_call l = true -> label_rows (l ++ r) (Some p) = label_rows r (Some (p ++ label_of l)).
Proof.
  revert p. induction l as [|c l IH]; intros p H; cbn [app]; [unfold label_of; cbn; rewrite app_nil_r; reflexivity |]. cbn [forallb] in H. apply andb_true_iff in H. destruct H as [H1 H2].
  destruct c; try discriminate H1; cbn [label_rows sign option_map]; rewrite IH by exact H2; unfold label_of; cbn [map List.concat]; rewrite app_assoc; reflexivity.
Qed.
Lemma label_rows_list l r : full_labels l -> forall p, label_rows (l ++ cEndTags :: r) (Some p) = label_list l p ++ label_rows r None.
Proof.
  induction 1 as [|l l' H1 HR H2 IH]; intro p; cbn [app label_rows label_list ready]; [reflexivity |]. rewrite label_list_app by exact H1. rewrite <- app_assoc, label_rows_labels by exact H1. rewrite IH. reflexivity.
Qed.
Lemma label_rows_plain c r : plain_call c = true -> label_rows (c :: r) None = match sign c, c with Some (_, _, a), (cOpen _ n | cClose _ n) => [and_space a; and_space (zdec (Z.of_nat n))] | _, _ => [] end ++ label_rows r None.
Proof. intro P. destruct c; try discriminate P; cbn [label_rows sign option_map]; try reflexivity; destruct b; reflexivity. Qed.

Definition taken (evs : list ev) (g : grp) : Prop := gempty g = true \/ exists b, In (B b) evs /\ within g b.
Lemma taken_room evs g : taken evs g -> g_part g = [] -> Forall small evs -> room g.
Proof.
  intros [E|(b & I & W)] P F; [exact (empty_room g E P) |]. rewrite Forall_forall in F. exact (within_room g b W (F _ I)).
Qed.
Lemma taken_more e evs g g' : g_part g = [] -> taken evs g' -> gempty g = true \/ In (B (own g)) e \/ extends g g' -> taken (e ++ evs) g.
Proof.
  intros P T [G|[I|X]]; [left; exact G | right; exists (own g); split; [apply in_or_app; left; exact I | apply own_within; exact P] |].
  destruct T as [E|(b & I & W)].
  - left. destruct (gempty_nil _ E) as (E1 & E2 & E3). destruct X as ((x & X1) & (y & X2) & (ts & X3)). rewrite E1 in X1. rewrite E2 in X2. rewrite E3 in X3. symmetry in X1, X2, X3. apply app_eq_nil in X1, X2, X3. unfold gempty. rewrite (proj1 X1), (proj1 X2), (proj1 X3). reflexivity.
  - right. exists b. split; [apply in_or_app; right; exact I | exact (extends_within _ _ _ X P W)].
Qed.

Lemma rows_join e1 e2 (x y z a b c : list (list ascii)) : List.concat (map tags_of e1) ++ x = y ++ a -> List.concat (map tags_of e2) ++ z = x ++ b -> c = a ++ b -> List.concat (map tags_of (e1 ++ e2)) ++ z = y ++ c.
Proof. intros H1 H2 ->. rewrite map_app, concat_app, <- app_assoc, H2, app_assoc, H1, <- app_assoc. reflexivity. Qed.

Theorem calls_run cs : followed cs -> forall g, tidy g -> awaited cs g -> exists e g', groups (map op_of cs) g = Some (e, g') /\ Forall solid e /\ tidy g' /\
  List.concat (map tags_of e) ++ g_tags g' = g_tags g ++ label_rows cs None /\ taken (e ++ block_of g') g /\ (Forall small (e ++ block_of g') -> roomy (map op_of cs) g).
Proof.
  induction 1 as [|c l Hc Hl IH|l l' H1 H2 HO H3 IH]; intros g T AW; pose proof (proj1 T) as TP.
  - assert (TK : taken ([] ++ block_of g) g).
    { destruct (gempty_in g []) as [G|G]; [left; exact G | right; exists (own g); rewrite app_nil_r in G; split; [exact G | apply own_within; exact TP]]. }
    exists [], g. cbn [map groups label_rows]. split; [reflexivity |]. split; [constructor |]. split; [exact T |]. split; [rewrite app_nil_r; reflexivity |]. split; [exact TK |]. intro F. split; [exact (taken_room _ _ TK TP F) | exact Logic.I].
  - destruct (plain_group c l g Hc T AW) as (e1 & g1 & E1 & S1 & T1 & A1 & W1 & L1 & X1). destruct (IH g1 T1 A1) as (e2 & g2 & E2 & S2 & T2 & L2 & TK & R).
    exists (e1 ++ e2), g2. cbn [map groups]. rewrite E1, E2. assert (TK1 : taken ((e1 ++ e2) ++ block_of g2) g) by (rewrite <- app_assoc; exact (taken_more _ _ _ _ TP TK X1)).
    split; [reflexivity |]. split; [apply Forall_app; auto |]. split; [exact T2 |]. split; [exact (rows_join _ _ _ _ _ _ _ _ L1 L2 (label_rows_plain c l Hc)) |].
    split; [exact TK1 |]. intro F. cbn [roomy]. split; [exact (taken_room _ _ TK1 TP F) |]. split; [rewrite W1; discriminate |]. rewrite E1. apply R. rewrite <- app_assoc in F. apply Forall_app in F. exact (proj2 F).
  - destruct H1 as [|l1 l2 F1 FR F2]; [contradiction |]. clear H2. cbn [app].
    (* the state when the labels begin *)
    assert (X0 : exists e0 g0, group (op_of cStartTags) g = Some (e0, g0) /\ Forall solid e0 /\ g_loj g0 = [] /\ g_eng g0 = [] /\ g_part g0 = [] /\ Forall (fun t => t <> []) (g_tags g0) /\ g_first g0 = true /\ List.concat (map tags_of e0) ++ g_tags g0 = g_tags g /\ (gempty g = true \/ In (B (own g)) e0 \/ extends g g0)).
    { cbn [op_of group]. destruct (texts g) eqn:TX.
      - destruct (texts_cleared g TX) as (C1 & C2 & C3). eexists _, _. split; [reflexivity |]. cbn [g_loj g_eng g_part g_tags g_first]. rewrite cleared_tags.
        split; [apply Forall_app; split; [apply block_solid; exact T | apply rest_solid] |]. repeat split; auto; [rewrite map_app, concat_app, block_tags, rest_tags, !app_nil_r; reflexivity |]. destruct (gempty_in g (rest_of (cleared g))); auto.
      - destruct (texts_nil g TX) as [C1 C2]. eexists _, _. split; [reflexivity |]. cbn [g_loj g_eng g_part g_tags g_first app]. split; [apply rest_solid |]. repeat split; auto; [exact (proj2 T) | rewrite rest_tags; reflexivity |]. right. right. repeat split; exists []; rewrite app_nil_r; reflexivity. }
    destruct X0 as (e0 & g0 & E0 & S0 & Z1 & Z2 & Z3 & Z4 & Z5 & L0 & X0).
    set (g1 := Grp (g_loj g0) (g_eng g0) (g_tags g0) (g_part g0) (g_eols g0) false).
    assert (E1 : group (op_of cStartTag) g0 = Some ([], g1)) by (cbn [op_of group]; rewrite Z5; reflexivity).
    set (g2 := plus_part g1 (label_of l1) (eols_of l1)).
    destruct (labels_run l2 F2 g2 eq_refl) as (n & E2 & R2). set (g3 := Grp (g_loj g2) (g_eng g2) (g_tags g2 ++ label_list l2 (g_part g2)) [] n false) in *. cbv zeta in E2, R2.
    assert (P2 : g_part g2 = label_of l1) by (cbn [g2 plus_part g_part g1]; rewrite Z3; reflexivity).
    assert (T3 : tidy g3).
    { split; [reflexivity |]. cbn [g3 g_tags]. apply Forall_app. split; [exact Z4 |]. apply label_list_real; [exact F2 | rewrite P2; apply label_of_real; exact FR]. }
    destruct (IH g3 T3 (fun _ _ => HO)) as (e3 & g4 & E3 & S3 & T4 & L3 & TK & R).
    assert (X3 : extends g0 g3).
    { repeat split; [exists []; cbn; rewrite app_nil_r; reflexivity | exists []; cbn; rewrite app_nil_r; reflexivity | eexists; reflexivity]. }
    assert (LT : label_list l2 (g_part g2) <> []).
    { destruct l2 as [|c2 l2]; [discriminate |]. inversion F2. discriminate. }
    assert (XB : exists b, In (B b) (e3 ++ block_of g4) /\ within g3 b).
    { destruct TK as [G|G]; [| exact G]. exfalso. destruct (gempty_nil _ G) as (_ & _ & Q). cbn [g3 g_tags] in Q. apply app_eq_nil in Q. exact (LT (proj2 Q)). }
    exists (e0 ++ e3), g4. assert (OPS : map op_of (cStartTags :: cStartTag :: (l1 ++ l2) ++ cEndTags :: l') = op_of cStartTags :: op_of cStartTag :: map op_of l1 ++ map op_of (l2 ++ [cEndTags]) ++ map op_of l').
    { cbn [map]. do 2 f_equal. rewrite !map_app, <- !app_assoc. reflexivity. }
    rewrite OPS. assert (TK1 : taken ((e0 ++ e3) ++ block_of g4) g).
    { rewrite <- app_assoc. apply (taken_more _ _ _ g0 TP); [| exact X0]. exact (taken_more [] _ g0 g3 Z3 TK (or_intror (or_intror X3))). }
    split; [cbn [groups]; rewrite E0, E1, groups_app, labels_group by exact F1; fold g2; rewrite groups_app, E2, E3; cbn [app]; reflexivity |].
    split; [apply Forall_app; auto |]. split; [exact T4 |]. split.
    { refine (rows_join e0 e3 (g_tags g0) (g_tags g) (g_tags g4) [] (label_list l2 (label_of l1) ++ label_rows l' None) _ _ _ _).
      - rewrite app_nil_r. exact L0.
      - rewrite app_assoc. rewrite <- P2. exact L3.
      - cbn [label_rows ready app]. rewrite <- app_assoc, (label_rows_labels l1 (l2 ++ cEndTags :: l') [] F1), (label_rows_list l2 l' F2). reflexivity. }
    split; [exact TK1 |]. intro F. destruct XB as (b & IB & WB). assert (SB : small (B b)).
    { rewrite Forall_forall in F. apply F. rewrite <- app_assoc. apply in_or_app. right. exact IB. }
    assert (W0 : within g0 b) by (exact (extends_within _ _ _ X3 Z3 WB)).
    cbn [roomy]. split; [exact (taken_room _ _ TK1 TP F) |]. split; [discriminate |]. rewrite E0. split; [exact (within_room _ _ W0 SB) |]. split; [discriminate |]. rewrite E1.
    apply (labels_roomy b); [exact SB | exact F1 | | apply (R2 b); [exact SB | exact WB | apply R; rewrite <- app_assoc in F; apply Forall_app in F; exact (proj2 F)]].
    fold g2. pose proof WB as (x & y & ts & B1 & B2 & _ & B4). cbn [g3 g_loj g_eng g_tags] in B1, B2, B4.
    assert (HD : exists z r, label_list l2 (g_part g2) = (g_part g2 ++ z) :: r).
    { destruct F2 as [|l3 l4 K3 K4 K5]; cbn [label_list]; exists []; eexists; rewrite app_nil_r; reflexivity. }
    destruct HD as (z & r & HD). exists x, y, z, (r ++ ts). rewrite B1, B2, B4, HD, <- app_assoc. auto.
Qed.

Lemma letters_inj a b : letters a = letters b -> a = b.
Proof. intro H. rewrite <- (string_of_list_ascii_of_string a), <- (string_of_list_ascii_of_string b). unfold letters in H. rewrite H. reflexivity. Qed.
Lemma same_text {A} s q (x y : A) : (if list_eq_dec ascii_dec (lit s) (lit q) then x else y) = if String.eqb s q then x else y.
Proof.
  destruct (list_eq_dec ascii_dec (lit s) (lit q)) as [E|E]; [apply letters_inj in E; subst; rewrite String.eqb_refl; reflexivity |].
  destruct (String.eqb_spec s q) as [->|]; [contradiction | reflexivity].
Qed.
Lemma special_sign s : special (lit s) = letters (dollar_sign s).
Proof. unfold special, dollar_sign. rewrite !same_text. destruct (String.eqb s _); [reflexivity |]. destruct (String.eqb s _); [reflexivity |]. destruct (String.eqb s _); reflexivity. Qed.
Lemma gloss_text s : (if dollar (lit s) then special (lit s) else spaced (lit s)) = match s with String "$" s0 => letters (dollar_sign (String "$" s0)) | _ => and_space s end.
Proof.
  destruct s as [|a s]; [reflexivity |]. rewrite special_sign. destruct a as [[] [] [] [] [] [] [] []]; reflexivity.
Qed.
Theorem block_rows cs : followed cs -> exists evs, blocks_of (map op_of cs) = Some evs /\ Forall solid evs /\
  List.concat (map (part_of loj) evs) = word_row cs /\ List.concat (map (part_of eng) evs) = gloss_row cs /\ List.concat (map tags_of evs) = label_rows cs None /\
  forall W, (W < 512)%Z -> (exists out, print_block W cs = Ok out) <-> Forall small evs.
Proof.
  intro F. destruct (calls_run cs F grp0) as (e & g & E & S & T & L & _ & R); [split; [reflexivity | constructor] | intros _ X; exfalso; exact (X eq_refl) |].
  assert (BO : blocks_of (map op_of cs) = Some (e ++ block_of g)) by (unfold blocks_of; rewrite E; reflexivity).
  assert (SO : Forall solid (e ++ block_of g)) by (apply Forall_app; split; [exact S | apply block_solid; exact T]).
  exists (e ++ block_of g). split; [exact BO |]. split; [exact SO |].
  destruct (texts_kept _ _ BO) as [K1 K2]. split; [| split; [| split]].
  - rewrite K1, map_map. unfold word_row. f_equal. apply map_ext. intro c. destruct c; try reflexivity; cbn [op_of loj_of sign]; [rewrite (proj1 (signs_eq b)) | rewrite (proj2 (signs_eq b))]; destruct b; reflexivity.
  - rewrite K2, map_map. unfold gloss_row. f_equal. apply map_ext. intro c. destruct c as [b n|b n|n|s|s| | | |q1 q2 q3 q4|s]; try reflexivity; cbn [op_of eng_of sign]; [rewrite (proj1 (signs_eq b)); destruct b; reflexivity | rewrite (proj2 (signs_eq b)); destruct b; reflexivity |].
    apply gloss_text.
  - rewrite map_app, concat_app, block_tags. exact L.
  - intros W HW. split; [intros (out & H); exact (driver_narrow W _ _ out BO SO H) |]. intro SM. exact (driver_safe W _ _ BO SO (R SM) HW).
Qed.
