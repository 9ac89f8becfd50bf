(* The layout is determined; the texts are kept; the simple glosser. *)
From Coq Require Import String Ascii List NArith ZArith Bool Arith Lia.
From Verif Require Import Base LayoutModel LayoutSpec LayoutProofs LayoutProofs2 LayoutProofs3.
Import ListNotations.
Open Scope list_scope.

(* ---- texts ---- *)
Definition keeps (f : block -> txt) (h : grp -> txt) (k : op -> txt) : Prop :=
  (forall g, h g = f (Block (g_loj g) (g_eng g) (g_tags g))).
Lemma block_keeps : forall f h k g, keeps f h k -> f (Block [] [] []) = [] -> concat (map (part_of f) (block_of g)) ++ h (cleared g) = h g.
Proof.
  intros f h k g K E. unfold block_of, cleared. destruct (_ && _ && _); [reflexivity|].
  rewrite !K. cbn [map concat part_of g_loj g_eng g_tags]. rewrite E, !app_nil_r. reflexivity.
Qed.
Lemma rest_keeps : forall f g, concat (map (part_of f) (rest_of g)) = [].
Proof. intros f g. unfold rest_of. destruct (N.ltb 0 _); reflexivity. Qed.
Lemma cleared_nil : forall g, g_loj (cleared g) = [] /\ g_eng (cleared g) = [].
Proof.
  intro g. unfold cleared. destruct (_ && _ && _) eqn:E; [|auto].
  apply andb_true_iff in E. destruct E as [E _]. apply andb_true_iff in E. destruct E as [E1 E2]. auto using empty_nil.
Qed.
Lemma texts_nil : forall g, texts g = false -> g_loj g = [] /\ g_eng g = [].
Proof. intros g H. unfold texts in H. destruct (g_loj g), (g_eng g); try discriminate. auto. Qed.
Lemma keeps_loj : keeps loj g_loj loj_of.
Proof. intro g. reflexivity. Qed.
Lemma keeps_eng : keeps eng g_eng eng_of.
Proof. intro g. reflexivity. Qed.
Ltac parts := rewrite ?map_app, ?concat_app, ?rest_keeps, ?app_nil_r.
Lemma group_loj : forall o g e g', group o g = Some (e, g') -> concat (map (part_of loj) e) ++ g_loj g' = g_loj g ++ loj_of o.
Proof.
  intros o g e g' G. pose proof (block_keeps loj g_loj loj_of g keeps_loj eq_refl) as K.
  destruct (cleared_nil g) as [C1 C2]. rewrite C1, app_nil_r in K.
  destruct o as [t sub|t sub|n|t|t| | | |brivla place trans brac|t]; cbn [group loj_of] in *.
  - destruct (open_signs t) as [[[a1 a2] a3]|]; [|injection G as <- <-; rewrite app_nil_r; reflexivity].
    destruct (empty (g_part (cleared g))); [|discriminate]. injection G as <- <-. parts. rewrite K. reflexivity.
  - destruct (close_signs t) as [[[a1 a2] a3]|]; [|injection G as <- <-; rewrite app_nil_r; reflexivity].
    destruct (texts g) eqn:TE.
    + injection G as <- <-. rewrite K. reflexivity.
    + destruct (_ && _); [|discriminate]. injection G as <- <-. destruct (texts_nil g TE) as [-> _]. reflexivity.
  - injection G as <- <-. rewrite app_nil_r. reflexivity.
  - destruct (empty (g_eng g)); injection G as <- <-; parts.
    + cbn [g_loj rested app]. unfold spaced. rewrite app_assoc. reflexivity.
    + rewrite K. cbn [g_loj rested]. rewrite C1. reflexivity.
  - injection G as <- <-. rewrite app_nil_r. reflexivity.
  - destruct (texts g) eqn:TE; injection G as <- <-; parts.
    + rewrite K. cbn [g_loj]. rewrite C1, app_nil_r. reflexivity.
    + reflexivity.
  - injection G as <- <-. rewrite app_nil_r. reflexivity.
  - injection G as <- <-. rewrite app_nil_r. destruct (g_first g); reflexivity.
  - injection G as <- <-. rewrite app_nil_r. reflexivity.
  - injection G as <- <-. rewrite app_nil_r. reflexivity.
Qed.
Lemma group_eng : forall o g e g', group o g = Some (e, g') -> concat (map (part_of eng) e) ++ g_eng g' = g_eng g ++ eng_of o.
Proof.
  intros o g e g' G. pose proof (block_keeps eng g_eng eng_of g keeps_eng eq_refl) as K.
  destruct (cleared_nil g) as [C1 C2]. rewrite C2, app_nil_r in K.
  destruct o as [t sub|t sub|n|t|t| | | |brivla place trans brac|t]; cbn [group eng_of] in *.
  - destruct (open_signs t) as [[[a1 a2] a3]|]; [|injection G as <- <-; rewrite app_nil_r; reflexivity].
    destruct (empty (g_part (cleared g))); [|discriminate]. injection G as <- <-. parts. rewrite K. reflexivity.
  - destruct (close_signs t) as [[[a1 a2] a3]|]; [|injection G as <- <-; rewrite app_nil_r; reflexivity].
    destruct (texts g) eqn:TE.
    + injection G as <- <-. rewrite K. reflexivity.
    + destruct (_ && _); [|discriminate]. injection G as <- <-. destruct (texts_nil g TE) as [_ ->]. reflexivity.
  - injection G as <- <-. rewrite app_nil_r. reflexivity.
  - destruct (empty (g_eng g)); injection G as <- <-; parts.
    + reflexivity.
    + rewrite K. cbn [g_eng rested]. rewrite C2, app_nil_r. reflexivity.
  - injection G as <- <-. cbn [g_eng map concat app]. destruct (dollar t); [reflexivity|]. unfold spaced. rewrite app_assoc. reflexivity.
  - destruct (texts g) eqn:TE; injection G as <- <-; parts.
    + rewrite K. cbn [g_eng]. rewrite C2, app_nil_r. reflexivity.
    + reflexivity.
  - injection G as <- <-. rewrite app_nil_r. reflexivity.
  - injection G as <- <-. rewrite app_nil_r. destruct (g_first g); reflexivity.
  - injection G as <- <-. rewrite app_nil_r. reflexivity.
  - injection G as <- <-. rewrite app_nil_r. reflexivity.
Qed.
Theorem texts_kept : forall os evs, blocks_of os = Some evs ->
  concat (map (part_of loj) evs) = concat (map loj_of os) /\ concat (map (part_of eng) evs) = concat (map eng_of os).
Proof.
  assert (L : forall os g e g', groups os g = Some (e, g') ->
    concat (map (part_of loj) e) ++ g_loj g' = g_loj g ++ concat (map loj_of os)
    /\ concat (map (part_of eng) e) ++ g_eng g' = g_eng g ++ concat (map eng_of os)).
  { induction os as [|o os IH]; intros g e g' G; cbn [groups] in G.
    - injection G as <- <-. cbn. rewrite !app_nil_r. auto.
    - destruct (group o g) as [[e1 g1]|] eqn:G1; [|discriminate]. destruct (groups os g1) as [[e2 g2]|] eqn:G2; [|discriminate].
      injection G as <- <-. apply IH in G2. destruct G2 as [A1 A2].
      pose proof (group_loj _ _ _ _ G1) as D1. pose proof (group_eng _ _ _ _ G1) as D2.
      rewrite !map_app, !concat_app. cbn [map concat]. rewrite <- !app_assoc, A1, A2, !app_assoc, D1, D2. auto. }
  intros os evs G. unfold blocks_of in G. destruct (groups os grp0) as [[e g]|] eqn:G1; [|discriminate]. injection G as <-.
  apply L in G1. destruct G1 as [A1 A2]. cbn [g_loj g_eng grp0 app] in A1, A2.
  pose proof (block_keeps loj g_loj loj_of g keeps_loj eq_refl) as K1. pose proof (block_keeps eng g_eng eng_of g keeps_eng eq_refl) as K2.
  destruct (cleared_nil g) as [C1 C2]. rewrite C1, app_nil_r in K1. rewrite C2, app_nil_r in K2.
  rewrite !map_app, !concat_app, K1, K2. auto.
Qed.

(* ---- one layout ---- *)
Lemma fits_line : forall W l, fits W l -> (Z.of_nat (width l) <= W)%Z \/ exists b, l = [b].
Proof.
  intros W l [N F]. destruct l as [|b l] using rev_ind; [tauto|]. clear IHl.
  destruct l as [|a l]; [right; exists b; reflexivity|]. left.
  rewrite width_app, width_one. apply (F (a :: l) b []); [reflexivity|discriminate].
Qed.
Lemma broken_tail : forall W l ls, broken W (concat (l :: ls)) (l :: ls) -> broken W (concat ls) ls.
Proof.
  intros W l ls (_ & F & U). split; [reflexivity|]. split; [inversion F; assumption|].
  intros pre l1 b r post E. apply (U (l :: pre) l1 b r post). rewrite E. reflexivity.
Qed.
Lemma prefix_cases : forall A (a b c d : list A), a ++ b = c ++ d ->
  (exists x t, c = a ++ x :: t /\ b = (x :: t) ++ d) \/ (exists x t, a = c ++ x :: t /\ d = (x :: t) ++ b) \/ (a = c /\ b = d).
Proof.
  intros A a. induction a as [|y a IH]; intros b [|z c] d H; cbn in H.
  - right. right. auto.
  - left. exists z, c. auto.
  - right. left. exists y, a. auto.
  - injection H as -> H. apply IH in H. destruct H as [(x & t & -> & ->)|[(x & t & -> & ->)|[-> ->]]].
    + left. exists x, t. auto.
    + right. left. exists x, t. auto.
    + right. right. auto.
Qed.
Lemma no_longer : forall W l x t ls, l <> [] -> fits W (l ++ x :: t) -> full W (l :: ls) -> Forall (fits W) ls -> 
  forall d, concat ls = x :: t ++ d -> False.
Proof.
  intros W l x t ls N F U FS d E. destruct ls as [|[|y r] ls]; [discriminate| |].
  - inversion FS as [|? ? [N' _] _]; subst. tauto.
  - cbn in E. injection E as -> E. specialize (U [] l x r ls eq_refl). destruct F as [_ F]. specialize (F l x t eq_refl N). lia.
Qed.
Lemma broken_one : forall W bs ls ls', broken W bs ls -> broken W bs ls' -> ls = ls'.
Proof.
  intros W bs ls. revert bs. induction ls as [|l ls IH]; intros bs ls' B1 B2.
  - destruct B1 as (<- & _). destruct ls' as [|l' ls']; [reflexivity|]. exfalso.
    destruct B2 as (E & F & _). inversion F as [|? ? [N _] _]; subst. destruct l'; [tauto|discriminate].
  - destruct ls' as [|l' ls'].
    { exfalso. destruct B2 as (<- & _). destruct B1 as (E & F & _). inversion F as [|? ? [N _] _]; subst. destruct l; [tauto|discriminate]. }
    pose proof B1 as (E1 & F1 & U1). pose proof B2 as (E2 & F2 & U2).
    inversion F1 as [|? ? FL1 FS1]; subst. inversion F2 as [|? ? FL2 FS2]; subst.
    pose proof E2 as X. cbn [concat] in X. symmetry in X. apply prefix_cases in X.
    destruct X as [(x & t & E & D)|[(x & t & E & D)|[E D]]].
    + exfalso. subst l'. apply (no_longer W l x t ls (proj1 FL1) FL2 U1 FS1 (concat ls') D).
    + exfalso. subst l. apply (no_longer W l' x t ls' (proj1 FL2) FL1 U2 FS2 (concat ls) D).
    + subst l'. f_equal. apply (IH (concat ls)); [apply (broken_tail W l), B1|].
      rewrite D. apply broken_tail with (l := l). rewrite E2. exact B2.
Qed.
Lemma evs_split : forall bs n evs bs' n' evs', map B bs ++ Rest n :: evs = map B bs' ++ Rest n' :: evs' ->
  bs = bs' /\ n = n' /\ evs = evs'.
Proof.
  induction bs as [|b bs IH]; intros n evs [|b' bs'] n' evs' E; cbn in E; try discriminate.
  - injection E as -> ->. auto.
  - injection E as -> E. apply IH in E. destruct E as (-> & -> & ->). auto.
Qed.
Lemma evs_end : forall bs n evs bs', map B bs ++ Rest n :: evs = map B bs' -> False.
Proof.
  induction bs as [|b bs IH]; intros n evs [|b' bs'] E; cbn in E; try discriminate. injection E as -> E. exact (IH _ _ _ E).
Qed.
Lemma map_B : forall bs bs', map B bs = map B bs' -> bs = bs'.
Proof. induction bs as [|b bs IH]; intros [|b' bs'] E; try discriminate; [reflexivity|]. injection E as -> E. f_equal. apply IH, E. Qed.
Theorem laid_one : forall W evs out out', laid W evs out -> laid W evs out' -> out = out'.
Proof.
  intros W evs out out' H. revert out'. induction H as [bs ls BR|bs ls n evs out BR H IH]; intros out' H'.
  - inversion H' as [bs' ls' BR' E|bs' ls' n' evs' out1 BR' H1 E]; subst.
    + apply map_B in E. subst bs'. rewrite (broken_one W bs ls ls' BR BR'). reflexivity.
    + exfalso. exact (evs_end _ _ _ _ E).
  - inversion H' as [bs' ls' BR' E|bs' ls' n' evs' out1 BR' H1 E]; subst.
    + exfalso. symmetry in E. exact (evs_end _ _ _ _ E).
    + apply evs_split in E. destruct E as (-> & -> & ->). rewrite (broken_one W bs ls ls' BR BR'), (IH out1 H1). reflexivity.
Qed.

(* ---- the simple glosser ---- *)
Definition cm_line (s : cm) : line :=
  Line (cm_0 s) (cm_1 s) (cm_2 s :: repeat [] 31) (if Nat.eqb (cm_used s) 0 then 0 else 1) (cm_used s).
Lemma pad_spaced : forall n a, List.length a < n -> pad n (spaced a) = pad n a.
Proof.
  intros n a H. unfold pad, spaced. rewrite app_length. cbn [List.length]. rewrite <- app_assoc. f_equal.
  replace (n - List.length a) with (S (n - (List.length a + 1))) by lia. reflexivity.
Qed.
Lemma content_ok : forall buf x m r, append_content buf x m = Ok r -> List.length x <= m -> r = buf ++ pad m x.
Proof.
  intros buf x m r H L. unfold append_content in H. apply obind_ok in H. destruct H as (y & H1 & H2).
  apply cat_ok in H1. apply cat_ok in H2. subst. unfold pad. rewrite <- app_assoc. reflexivity.
Qed.
Lemma cm_out_line : forall W evs s, Page W evs (cm_line s) (cm_out s) ->
  cm_out (block_newline s) = cm_out s ++ line_out (cm_line s) /\ cm_line (block_newline s) = line0.
Proof.
  intros W evs s P. split; [|reflexivity]. unfold block_newline. cbn [cm_out]. f_equal.
  unfold line_out, cm_line, line_text. cbn [l_width l_loj l_eng l_tags l_used].
  destruct (cm_used s) as [|n]; [reflexivity|]. cbn [Nat.ltb Nat.leb Nat.eqb firstn map concat]. rewrite app_nil_r, <- app_assoc. reflexivity.
Qed.
Definition cm_turn (W : Z) (b : block) (s : cm) : cm := if (Z.of_nat (wide b + cm_used s) >? W)%Z then block_newline s else s.
Lemma cm_place : forall W evs s b, Page W evs (cm_line s) (cm_out s) -> 0 < wide b ->
  exists cur, Line_of cur (cm_line (cm_turn W b s)) /\ (cur = [] \/ (Z.of_nat (width cur + wide b) <= W)%Z)
    /\ forall l, Line_of (cur ++ [b]) l -> Page W (evs ++ [B b]) l (cm_out (cm_turn W b s)).
Proof.
  intros W evs s b PG Hb. destruct (page_place W evs (cm_line s) (cm_out s) b PG Hb) as (cur & HL & HC & HN). cbv zeta in HL, HN.
  destruct (cm_out_line W evs s PG) as [CO CL]. exists cur. change (l_width (cm_line s)) with (cm_used s) in HL, HN. unfold cm_turn.
  split; [|split; [exact HC|]].
  - destruct (_ >? _)%Z; [|exact HL]. rewrite CL. destruct (Nat.eqb_spec (cm_used s) 0) as [X|X]; [|exact HL].
    destruct HL as (_ & _ & L3 & L4 & _ & _ & _). cbn [l_width l_used cm_line] in L3, L4. rewrite X in L3, L4. cbn in L4.
    pose proof line0_of as LL. destruct LL as (A1 & A2 & A3 & A4 & A5 & A6 & A7).
    assert (R0 : row loj cur = [] /\ row eng cur = []) by (split; apply length_zero_iff_nil; [rewrite loj_row|rewrite eng_row]; auto).
    destruct R0 as [R1 R2]. unfold Line_of. rewrite R1, R2, <- L3, <- L4.
    split; [reflexivity|]. split; [reflexivity|]. split; [reflexivity|]. split; [reflexivity|]. split; [exact A5|]. split; [lia|].
    intro i. rewrite A7. reflexivity.
  - intros l Hl. specialize (HN l Hl). destruct (_ >? _)%Z; [rewrite CO|]; exact HN.
Qed.
Lemma cm_block_ok : forall W evs s s' a1 a2 a3 b, Page W evs (cm_line s) (cm_out s) ->
  List.length (tags b) = 1 ->
  wide b = Nat.max (Nat.max (List.length a1) (List.length a2)) (List.length a3) + 1 ->
  pad (wide b) (loj b) = pad (wide b) a1 -> pad (wide b) (eng b) = pad (wide b) a2 -> pad (wide b) (tag 0 b) = pad (wide b) a3 ->
  do_block W a1 a2 a3 s = Ok s' -> Page W (evs ++ [B b]) (cm_line s') (cm_out s').
Proof.
  intros W evs s s' a1 a2 a3 b PG HT HW P1 P2 P3 H. unfold do_block in H.
  set (ml := Nat.max (Nat.max (List.length a1) (List.length a2)) (List.length a3)) in *.
  assert (M : List.length a1 <= ml + 1 /\ List.length a2 <= ml + 1 /\ List.length a3 <= ml + 1) by (unfold ml; lia).
  clearbody ml. destruct M as (M1 & M2 & M3).
  replace (ml + cm_used s + 1) with (wide b + cm_used s) in H by lia. rewrite <- HW in *.
  destruct (cm_place W evs s b PG ltac:(lia)) as (cur & HL & _ & HN). fold (cm_turn W b s) in H.
  set (s1 := cm_turn W b s) in *. clearbody s1.
  apply obind_ok in H. destruct H as (x & Hx & H). apply obind_ok in H. destruct H as (y & Hy & H).
  apply obind_ok in H. destruct H as (z & Hz & H). injection H as <-.
  apply content_ok in Hx; [|exact M1]. apply content_ok in Hy; [|exact M2]. apply content_ok in Hz; [|exact M3].
  cbn [cm_out]. apply HN. destruct HL as (L1 & L2 & L3 & L4 & L5 & L6 & L7). cbn [l_loj l_eng l_width l_used l_tags cm_line] in *.
  assert (Z1 : cm_2 s1 = row (tag 0) cur).
  { specialize (L7 0). cbn [nth] in L7. destruct (Nat.ltb_spec 0 (tag_rows cur)) as [A|A]; [exact L7|].
    rewrite row_beyond by exact A. rewrite <- L3. destruct (Nat.eqb_spec (cm_used s1) 0) as [X|X]; [rewrite X; exact L7|lia]. }
  unfold Line_of. cbn [l_loj l_eng l_width l_used l_tags cm_line cm_0 cm_1 cm_2 cm_used].
  rewrite !row_app, !row_one, width_app, width_one, tag_rows_app, tag_rows_one, HT, <- L1, <- L2, <- L3, P1, P2.
  split; [exact Hx|]. split; [exact Hy|]. split; [reflexivity|].
  assert (TR : tag_rows cur <= 1) by (rewrite <- L4; destruct (Nat.eqb (cm_used s1) 0); lia).
  replace (Nat.max (tag_rows cur) 1) with 1 by lia.
  split; [destruct (Nat.eqb_spec (cm_used s1 + wide b) 0); [lia|reflexivity]|]. split; [reflexivity|]. split; [lia|].
  intros [|i].
  - cbn [nth Nat.ltb Nat.leb]. rewrite row_app, row_one, P3, <- Z1. exact Hz.
  - cbn [nth Nat.ltb Nat.leb]. apply nth_repeat_nil.
Qed.
Lemma content_do : forall buf x m, List.length x <= m -> List.length buf + m < 512 -> exists r, append_content buf x m = Ok r.
Proof.
  intros buf x m L H. unfold append_content. rewrite cat_do by lia. cbn [obind]. rewrite cat_do by (rewrite app_length, repeat_length; lia).
  eexists. reflexivity.
Qed.
Lemma cm_block_do : forall W evs s a1 a2 a3 , Page W evs (cm_line s) (cm_out s) -> (W < 512)%Z ->
  List.length a1 < 511 -> List.length a2 < 511 -> List.length a3 < 511 ->
  exists s', do_block W a1 a2 a3 s = Ok s'.
Proof.
  intros W evs s a1 a2 a3 PG HW M1 M2 M3. unfold do_block.
  set (ml := Nat.max (Nat.max (List.length a1) (List.length a2)) (List.length a3)) in *.
  set (b := Block (repeat " "%char (ml + 1)) [] []).
  assert (Wb : wide b = ml + 1) by (unfold wide; cbn [b loj eng tags map fold_right List.length]; rewrite repeat_length; lia).
  assert (M : List.length a1 <= ml + 1 /\ List.length a2 <= ml + 1 /\ List.length a3 <= ml + 1 /\ ml < 511) by (unfold ml; lia).
  clearbody ml. destruct M as (N1 & N2 & N3 & N4).
  replace (ml + cm_used s + 1) with (wide b + cm_used s) by lia.
  destruct (cm_place W evs s b PG ltac:(lia)) as (cur & HL & HC & _). fold (cm_turn W b s).
  set (s1 := cm_turn W b s) in *. clearbody s1.
  destruct HL as (L1 & L2 & L3 & L4 & L5 & L6 & L7). cbn [l_loj l_eng l_width l_used l_tags cm_line] in *.
  assert (C : width cur + (ml + 1) < 512) by (destruct HC as [->|HC]; [cbn; lia|lia]).
  destruct (content_do (cm_0 s1) a1 (ml + 1) N1) as [x ->]; [rewrite L1, loj_row; exact C|]. cbn [obind].
  destruct (content_do (cm_1 s1) a2 (ml + 1) N2) as [y ->]; [rewrite L2, eng_row; exact C|]. cbn [obind].
  destruct (content_do (cm_2 s1) a3 (ml + 1) N3) as [z ->]; [|eexists; reflexivity].
  specialize (L7 0). cbn [nth] in L7. rewrite L7. destruct (Nat.ltb 0 _); [rewrite tag_row; exact C|cbn; lia].
Qed.
Lemma wide3 : forall a b c, wide (Block (spaced a) (spaced b) [spaced c]) = Nat.max (Nat.max (List.length a) (List.length b)) (List.length c) + 1.
Proof. intros. unfold wide, spaced. cbn [loj eng tags map fold_right]. rewrite !app_length. cbn [List.length]. lia. Qed.
Lemma cm_step_ok : forall W o evs s s', Page W evs (cm_line s) (cm_out s) -> cm_step W o s = Ok s' ->
  Page W (evs ++ cm_evs o) (cm_line s') (cm_out s').
Proof.
  intros W o evs s s' P H.
  assert (WD : forall a b c evs s s', Page W evs (cm_line s) (cm_out s) -> do_block W a b c s = Ok s' ->
    Page W (evs ++ [B (Block (spaced a) (spaced b) [spaced c])]) (cm_line s') (cm_out s')).
  { clear. intros a b c evs s s' P H. apply (cm_block_ok W evs s s' a b c); try exact P; try exact H; rewrite ?wide3; cbn [loj eng tag tags nth];
      try reflexivity; apply pad_spaced; lia. }
  destruct o as [a b c| |t]; cbn [cm_step cm_evs] in *.
  - apply (WD a b c evs s s' P H).
  - injection H as <-. destruct (cm_out_line W evs s P) as [CO CL]. 
    change (Page W (evs ++ [Rest 1]) line0 (cm_out (block_newline s) ++ sep 1)). rewrite CO, <- app_assoc. apply page_rest, P.
  - apply obind_ok in H. destruct H as (s1 & H1 & H). apply obind_ok in H. destruct H as (s2 & H2 & H).
    change [B (Block (lit "( ") (lit "( ") [lit "( "]); B (Block (spaced t) [] [[]]); B (Block (lit ") ") (lit ") ") [lit ") "])]
      with ([B (Block (spaced (lit "(")) (spaced (lit "(")) [spaced (lit "(")])] ++ [B (Block (spaced t) [] [[]])] ++ [B (Block (spaced (lit ")")) (spaced (lit ")")) [spaced (lit ")")])]).
    rewrite !app_assoc. apply (WD _ _ _ _ s2 s'); [|exact H].
    apply (WD _ _ _ _ s s1 P) in H1.
    assert (X : wide (Block (spaced t) [] [[]]) = List.length t + 1).
    { unfold wide, spaced. cbn [loj eng tags map fold_right List.length]. rewrite app_length. cbn [List.length]. lia. }
    apply (cm_block_ok W _ s1 s2 t [] [] (Block (spaced t) [] [[]]) H1); try exact H2; rewrite ?X; cbn [loj eng tag tags nth List.length]; try reflexivity; try lia.
    apply pad_spaced. lia.
Qed.
Theorem cm_laid : forall W os out, cm_run W os = Ok out -> laid W (concat (map cm_evs os)) out.
Proof.
  assert (L : forall W os evs s s', Page W evs (cm_line s) (cm_out s) -> cm_steps W os s = Ok s' ->
    Page W (evs ++ concat (map cm_evs os)) (cm_line s') (cm_out s')).
  { intros W os. induction os as [|o os IH]; intros evs s s' P H; cbn [cm_steps map concat] in *.
    - injection H as <-. rewrite app_nil_r. exact P.
    - apply obind_ok in H. destruct H as (s1 & H1 & H2). rewrite app_assoc. apply (IH _ s1 s'); [|exact H2].
      apply (cm_step_ok W o evs s s1 P H1). }
  intros W os out H. unfold cm_run in H. apply obind_ok in H. destruct H as (s & H1 & H). injection H as H.
  assert (P : Page W (concat (map cm_evs os)) (cm_line s) (cm_out s)) by (apply (L W os [] cm0 s (page0 W) H1)).
  change (cm_out (block_newline s) = out) in H.
  rewrite (proj1 (cm_out_line W _ s P)) in H. subst out. apply page_done, P.
Qed.

(* ---- room for the simple glosser ---- *)
Lemma cm_step_do : forall W o evs s, Page W evs (cm_line s) (cm_out s) -> (W < 512)%Z -> cm_small o -> exists s', cm_step W o s = Ok s'.
Proof.
  intros W o evs s P HW HS. destruct o as [a b c| |t]; cbn [cm_step cm_small] in *.
  - destruct HS as (S1 & S2 & S3). exact (cm_block_do W evs s a b c P HW S1 S2 S3).
  - eexists. reflexivity.
  - destruct (cm_block_do W evs s (lit "(") (lit "(") (lit "(") P HW) as [s1 H1]; try (cbn; lia). rewrite H1. cbn [obind].
    assert (P1 : Page W (evs ++ cm_evs (CWord (lit "(") (lit "(") (lit "("))) (cm_line s1) (cm_out s1)) by exact (cm_step_ok W (CWord (lit "(") (lit "(") (lit "(")) evs s s1 P H1).
    destruct (cm_block_do W _ s1 t [] [] P1 HW) as [s2 H2]; try (cbn; lia). rewrite H2. cbn [obind].
    assert (X : wide (Block (spaced t) [] [[]]) = List.length t + 1).
    { unfold wide, spaced. cbn [loj eng tags map fold_right List.length]. rewrite app_length. cbn [List.length]. lia. }
    assert (P2 : Page W ((evs ++ cm_evs (CWord (lit "(") (lit "(") (lit "("))) ++ [B (Block (spaced t) [] [[]])]) (cm_line s2) (cm_out s2)).
    { apply (cm_block_ok W _ s1 s2 t [] [] (Block (spaced t) [] [[]]) P1); try exact H2; rewrite ?X; cbn [loj eng tag tags nth List.length]; try reflexivity; try lia.
      apply pad_spaced. lia. }
    apply (cm_block_do W _ s2 _ _ _ P2 HW); cbn; lia.
Qed.
Theorem cm_safe : forall W os, (W < 512)%Z -> Forall cm_small os -> exists out, cm_run W os = Ok out.
Proof.
  assert (L : forall W os evs s, (W < 512)%Z -> Forall cm_small os -> Page W evs (cm_line s) (cm_out s) -> exists s', cm_steps W os s = Ok s').
  { intros W os. induction os as [|o os IH]; intros evs s HW HS P; cbn [cm_steps]; [eexists; reflexivity|].
    inversion HS as [|? ? H1 H2]; subst. destruct (cm_step_do W o evs s P HW H1) as [s1 E]. rewrite E. cbn [obind].
    apply (IH _ s1 HW H2 (cm_step_ok W o evs s s1 P E)). }
  intros W os HW HS. destruct (L W os [] cm0 HW HS (page0 W)) as [s E]. unfold cm_run. rewrite E. eexists. reflexivity.
Qed.
