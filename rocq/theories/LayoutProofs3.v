(* Runs of the driver. *)
From Coq Require Import String Ascii List NArith ZArith Bool Arith Lia.
From Verif Require Import Base LayoutModel LayoutSpec LayoutProofs LayoutProofs2.
Import ListNotations.
Open Scope list_scope.

Lemma set_nth_length : forall l i t, List.length (set_nth i t l) = List.length l.
Proof. induction l as [|x l IH]; intros [|i] t; cbn; try reflexivity. rewrite IH. reflexivity. Qed.
Lemma set_nth_nth : forall l i t j, i < List.length l -> nth j (set_nth i t l) [] = if Nat.eqb j i then t else nth j l [].
Proof.
  induction l as [|x l IH]; intros i t j H; [cbn in H; lia|]. destruct i as [|i], j as [|j]; cbn; try reflexivity.
  apply IH. cbn in H. lia.
Qed.
Lemma nth_snoc : forall (l : list txt) x i, nth i (l ++ [x]) [] = if Nat.eqb i (List.length l) then x else nth i l [].
Proof.
  induction l as [|y l IH]; intros x [|i]; cbn; try reflexivity; [destruct i; reflexivity|]. apply IH.
Qed.
Lemma nth_snoc_nil : forall (l : list txt) i, nth i (l ++ [[]]) [] = nth i l [].
Proof.
  intros l i. rewrite nth_snoc. destruct (Nat.eqb_spec i (List.length l)) as [->|]; [|reflexivity].
  rewrite nth_overflow by lia. reflexivity.
Qed.

Lemma blk_done : forall g b n f, Blk_of g b ->
  Blk_of (Grp (g_loj g) (g_eng g) (g_tags g ++ [g_part g]) [] n f) (Blk (b_loj b) (b_eng b) (b_tags b) (S (b_used b))).
Proof.
  intros g b n f (B1 & B2 & B3 & B4 & B5). unfold Blk_of. cbn [b_loj b_eng b_tags b_used g_loj g_eng g_tags g_part].
  split; [exact B1|]. split; [exact B2|]. split; [rewrite app_length; cbn; lia|]. split; [exact B4|].
  intro i. rewrite nth_snoc_nil. apply B5.
Qed.
Lemma blk_write : forall g b t n f, Blk_of g b -> b_used b < 32 ->
  Blk_of (Grp (g_loj g) (g_eng g) (g_tags g) (g_part g ++ t) n f)
    (Blk (b_loj b) (b_eng b) (set_nth (b_used b) (nth (b_used b) (b_tags b) [] ++ t) (b_tags b)) (b_used b)).
Proof.
  intros g b t n f (B1 & B2 & B3 & B4 & B5) H. unfold Blk_of. cbn [b_loj b_eng b_tags b_used g_loj g_eng g_tags g_part].
  split; [exact B1|]. split; [exact B2|]. split; [exact B3|]. split; [rewrite set_nth_length; exact B4|].
  intro i. rewrite set_nth_nth by lia. rewrite !B5, !nth_snoc, B3, Nat.eqb_refl.
  destruct (Nat.eqb i (List.length (g_tags g))); reflexivity.
Qed.
Lemma blk_signs : forall x sub g b b', Blk_of g b -> g_tags g = [] -> g_part g = [] -> bracket_blk x sub b = Ok b' ->
  Blk_of (signs x sub g) b'.
Proof.
  intros [[a1 a2] a3] sub g b b' (B1 & B2 & B3 & B4 & B5) HT HP H. unfold bracket_blk in H.
  destruct (Nat.leb _ _); [discriminate|]. injection H as <-. unfold signs, Blk_of. cbn [b_loj b_eng b_tags b_used g_loj g_eng g_tags g_part].
  split; [reflexivity|]. split; [reflexivity|]. split; [reflexivity|].
  rewrite HT, HP in B5. cbn [app] in B5.
  destruct (b_tags b) as [|t1 [|t2 ts]]; cbn in B4; try discriminate. cbn [skipn].
  split; [cbn; lia|]. intros [|[|i]]; cbn [app nth]; try reflexivity.
  specialize (B5 (S (S i))). cbn [nth] in B5. rewrite B5. destruct i as [|[|i]]; reflexivity.
Qed.

Lemma texts_blk : forall g b, Blk_of g b -> negb (empty (b_loj b)) || negb (empty (b_eng b)) = texts g.
Proof. intros g b (-> & -> & _). reflexivity. Qed.
Lemma any_blk : forall g b, Blk_of g b -> negb (empty (b_loj b)) || negb (empty (b_eng b)) || Nat.ltb 0 (b_used b) = negb (gempty g).
Proof.
  intros g b (-> & -> & -> & _). unfold gempty. destruct (empty (g_loj g)), (empty (g_eng g)), (g_tags g); reflexivity.
Qed.
Lemma add_ok : forall t s s' , add_tag t s = Ok s' -> b_used (t_blk s) < 32 /\
  s' = with_blk (Blk (b_loj (t_blk s)) (b_eng (t_blk s))
         (set_nth (b_used (t_blk s)) (nth (b_used (t_blk s)) (b_tags (t_blk s)) [] ++ t) (b_tags (t_blk s))) (b_used (t_blk s))) s.
Proof.
  intros t s s' H. unfold add_tag in H. destruct (Nat.leb_spec max_tags (b_used (t_blk s))) as [X|X]; [discriminate|].
  change max_tags with 32 in X. split; [exact X|].
  apply obind_ok in H. destruct H as (x & H1 & H). apply cat_ok in H1. injection H as <-. subst x. reflexivity.
Qed.
Lemma inv_add : forall W t s s' g evs, Inv W s g evs -> add_tag t s = Ok s' ->
  Inv W s' (Grp (g_loj g) (g_eng g) (g_tags g) (g_part g ++ t) (g_eols g) (g_first g)) evs.
Proof.
  intros W t s s' g evs (HB & HP & HF & HM & PG) H. apply add_ok in H. destruct H as [X ->].
  split; [apply blk_write; assumption|]. split; [exact HP|]. split; [exact HF|]. split; [exact HM|exact PG].
Qed.
Lemma inv_blk : forall W s g evs b g', Inv W s g evs -> Blk_of g' b -> g_eols g' = g_eols g -> g_first g' = g_first g ->
  Inv W (with_blk b s) g' evs.
Proof.
  intros W s g evs b g' (HB & HP & HF & HM & PG) H E1 E2. split; [exact H|]. cbn [t_pending t_first t_max t_line t_out with_blk].
  rewrite E1, E2. auto.
Qed.
Lemma cleared_tags : forall g, g_tags (cleared g) = [].
Proof.
  intro g. unfold cleared. destruct (_ && _ && _) eqn:E; [|reflexivity].
  apply andb_true_iff in E. destruct E as [_ E]. destruct (g_tags g); [reflexivity|discriminate].
Qed.
Lemma empty_nil : forall t, empty t = true -> t = [].
Proof. intros [|x t]; [reflexivity|discriminate]. Qed.
Lemma texts_cleared : forall g, texts g = true -> g_part (cleared g) = [] /\ g_loj (cleared g) = [] /\ g_eng (cleared g) = [].
Proof.
  intros g H. unfold cleared, texts in *. destruct (empty (g_loj g)), (empty (g_eng g)); try discriminate; cbn; auto.
Qed.
Lemma gempty_block : forall g, gempty g = true -> block_of g = [] /\ cleared g = g.
Proof. intros g H. unfold block_of, cleared. unfold gempty in H. rewrite H. auto. Qed.

Lemma inv_step : forall W o s g evs e g' s', Inv W s g evs -> group o g = Some (e, g') -> Forall solid e ->
  step o s = Ok s' -> Inv W s' g' (evs ++ e).
Proof.
  intros W o s g evs e g' s' I G HS H. pose proof I as (HB & HP & HF & HM & PG).
  destruct o as [t sub|t sub|n|t|t| | | |brivla place trans brac|t]; cbn [step group] in *.
  - (* Open *)
    destruct (open_signs t) as [x|]; [|injection G as <- <-; injection H as <-; rewrite app_nil_r; exact I].
    destruct (empty (g_part (cleared g))) eqn:EP; [|discriminate]. injection G as <- <-.
    rewrite (any_blk g (t_blk s) HB) in H.
    apply obind_ok in H. destruct H as (s1 & H1 & H). apply obind_ok in H. destruct H as (b & H2 & H). injection H as <-.
    apply Forall_app in HS. destruct HS as [S1 S2].
    assert (I1 : Inv W s1 (cleared g) (evs ++ block_of g)).
    { destruct (gempty g) eqn:GE; cbn [negb] in H1.
      - injection H1 as <-. destruct (gempty_block g GE) as [-> ->]. rewrite app_nil_r. exact I.
      - apply inv_flush with (s := s); assumption. }
    apply inv_eols in I1. rewrite app_assoc.
    replace (rest_of g) with (rest_of (cleared g)) by (unfold rest_of, cleared; destruct (_ && _ && _); reflexivity).
    apply inv_blk with (g := rested (cleared g)); [exact I1| | |].
    + apply blk_signs with (b := t_blk (clear_eols s1)); [apply I1|apply cleared_tags|apply empty_nil, EP|exact H2].
    + destruct x as [[a1 a2] a3]. reflexivity.
    + destruct x as [[a1 a2] a3]. reflexivity.
  - (* Close *)
    destruct (close_signs t) as [x|]; [|injection G as <- <-; injection H as <-; rewrite app_nil_r; exact I].
    rewrite (texts_blk g (t_blk s) HB) in H.
    apply obind_ok in H. destruct H as (s1 & H1 & H). apply obind_ok in H. destruct H as (b & H2 & H). injection H as <-.
    destruct (texts g) eqn:TE.
    + injection G as <- <-. assert (I1 : Inv W s1 (cleared g) (evs ++ block_of g)) by (apply inv_flush with (s := s); assumption).
      apply inv_blk with (g := cleared g); [exact I1| | |].
      * apply blk_signs with (b := t_blk s1); [apply I1|apply cleared_tags|apply texts_cleared, TE|exact H2].
      * destruct x as [[a1 a2] a3]. reflexivity.
      * destruct x as [[a1 a2] a3]. reflexivity.
    + injection H1 as <-. destruct (_ && _) eqn:EE; [|discriminate]. injection G as <- <-. rewrite app_nil_r.
      apply andb_true_iff in EE. destruct EE as [E1 E2].
      apply inv_blk with (g := g); [exact I| | |].
      * apply blk_signs with (b := t_blk s); [exact HB|destruct (g_tags g); [reflexivity|discriminate]|apply empty_nil, E2|exact H2].
      * destruct x as [[a1 a2] a3]. reflexivity.
      * destruct x as [[a1 a2] a3]. reflexivity.
  - (* Eols *)
    injection G as <- <-. injection H as <-. rewrite app_nil_r. split; [exact HB|].
    cbn [t_pending t_first t_max t_line t_out g_eols g_first]. rewrite HP. auto.
  - (* Loj *)
    apply obind_ok in H. destruct H as (s1 & H1 & H).
    apply obind_ok in H. destruct H as (x & H2 & H). apply obind_ok in H. destruct H as (y & H3 & H). injection H as <-.
    apply cat_ok in H2. apply cat_ok in H3.
    assert (X : exists e1 g1, (if empty (g_eng g) then ([], g) else (block_of g, cleared g)) = (e1, g1)) by (eexists; eexists; apply surjective_pairing).
    destruct X as (e1 & g1 & X). rewrite X in G. injection G as <- <-. apply Forall_app in HS. destruct HS as [S1 S2].
    assert (I1 : Inv W s1 g1 (evs ++ e1)).
    { replace (empty (b_eng (t_blk s))) with (empty (g_eng g)) in H1 by (destruct HB as (_ & -> & _); reflexivity).
      destruct (empty (g_eng g)); cbn [negb] in H1; injection X as <- <-.
      - injection H1 as <-. rewrite app_nil_r. exact I.
      - apply inv_flush with (s := s); assumption. }
    apply inv_eols in I1. rewrite app_assoc.
    apply inv_blk with (g := rested g1); [exact I1| |reflexivity|reflexivity].
    pose proof I1 as ((B1 & B2 & B3 & B4 & B5) & _).
    split; [cbn [b_loj g_loj]; subst; unfold spaced; rewrite B1; reflexivity|].
    split; [exact B2|]. split; [exact B3|]. split; [exact B4|exact B5].
  - (* Trans *)
    injection G as <- <-. rewrite app_nil_r. pose proof HB as (B1 & B2 & B3 & B4 & B5).
    destruct (dollar t).
    + apply obind_ok in H. destruct H as (x & H1 & H). apply cat_ok in H1. injection H as <-.
      apply inv_blk with (g := g); [exact I| |reflexivity|reflexivity].
      split; [exact B1|]. split; [cbn [b_eng g_eng]; subst x; rewrite B2; reflexivity|]. split; [exact B3|]. split; [exact B4|exact B5].
    + apply obind_ok in H. destruct H as (x & H1 & H). apply cat_ok in H1. apply obind_ok in H. destruct H as (y & H2 & H). apply cat_ok in H2. injection H as <-.
      apply inv_blk with (g := g); [exact I| |reflexivity|reflexivity].
      split; [exact B1|]. split; [cbn [b_eng g_eng]; subst; unfold spaced; rewrite B2; reflexivity|]. split; [exact B3|]. split; [exact B4|exact B5].
  - (* StartTags *)
    rewrite (texts_blk g (t_blk s) HB) in H.
    apply obind_ok in H. destruct H as (s1 & H1 & H). injection H as <-.
    assert (X : exists e1 g1, (if texts g then (block_of g, cleared g) else ([], g)) = (e1, g1)) by (eexists; eexists; apply surjective_pairing).
    destruct X as (e1 & g1 & X). rewrite X in G. injection G as <- <-. apply Forall_app in HS. destruct HS as [S1 S2].
    assert (I1 : Inv W s1 g1 (evs ++ e1)).
    { destruct (texts g); injection X as <- <-.
      - apply inv_flush with (s := s); assumption.
      - injection H1 as <-. rewrite app_nil_r. exact I. }
    apply inv_eols in I1. rewrite app_assoc. destruct I1 as (J1 & J2 & J3 & J4 & J5).
    split; [exact J1|]. split; [exact J2|]. split; [reflexivity|]. split; [exact J4|exact J5].
  - (* EndTags *)
    injection G as <- <-. injection H as <-. rewrite app_nil_r.
    apply inv_blk with (g := g); [exact I| |reflexivity|reflexivity]. apply blk_done, HB.
  - (* StartTag *)
    injection G as <- <-. injection H as <-. rewrite app_nil_r. rewrite HF. destruct (g_first g).
    + split; [exact HB|]. split; [exact HP|]. split; [reflexivity|]. split; [exact HM|exact PG].
    + split; [apply blk_done, HB|]. split; [exact HP|]. split; [reflexivity|]. split; [exact HM|exact PG].
  - (* TagText *)
    injection G as <- <-. rewrite app_nil_r. destruct (_ || _); [discriminate|].
    apply obind_ok in H. destruct H as (s1 & H1 & H2).
    apply (inv_add W _ _ _ g evs I) in H1. apply (inv_add W _ _ _ _ evs H1) in H2.
    cbn [g_loj g_eng g_tags g_part g_eols g_first] in H2. rewrite <- app_assoc in H2. exact H2.
  - (* PartTag *)
    injection G as <- <-. rewrite app_nil_r. apply (inv_add W _ _ _ g evs I H).
Qed.

Lemma inv_steps : forall W os s g evs e g' s', Inv W s g evs -> groups os g = Some (e, g') -> Forall solid e ->
  steps os s = Ok s' -> Inv W s' g' (evs ++ e).
Proof.
  intros W os. induction os as [|o os IH]; intros s g evs e g' s' I G HS H; cbn [groups steps] in *.
  - injection G as <- <-. injection H as <-. rewrite app_nil_r. exact I.
  - destruct (group o g) as [[e1 g1]|] eqn:G1; [|discriminate]. destruct (groups os g1) as [[e2 g2]|] eqn:G2; [|discriminate].
    injection G as <- <-. apply Forall_app in HS. destruct HS as [S1 S2].
    apply obind_ok in H. destruct H as (s1 & H1 & H2). rewrite app_assoc.
    apply (IH s1 g1 (evs ++ e1) e2 g2 s'); try assumption. apply (inv_step W o s g evs e1 g1 s1); assumption.
Qed.

Theorem driver_laid : forall W os evs out, blocks_of os = Some evs -> Forall solid evs -> run_driver W os = Ok out ->
  laid W evs out.
Proof.
  intros W os evs out G HS H. unfold blocks_of in G. destruct (groups os grp0) as [[e g]|] eqn:G1; [|discriminate].
  injection G as <-. apply Forall_app in HS. destruct HS as [S1 S2].
  unfold run_driver in H. apply obind_ok in H. destruct H as (s & H1 & H). apply obind_ok in H. destruct H as (s' & H2 & H).
  injection H as <-.
  pose proof (inv_steps W os (tb0 W) grp0 [] e g s (inv0 W) G1 S1 H1) as I. cbn [app] in I.
  pose proof (inv_flush W s g e s' I S2 H2) as (_ & _ & _ & _ & PG). apply page_done in PG.
  replace (t_out (flush_line s')) with (t_out s' ++ line_out (t_line s')); [exact PG|].
  unfold flush_line, line_out. destruct (Nat.eqb _ 0); [apply app_nil_r|reflexivity].
Qed.
