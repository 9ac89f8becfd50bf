(* Room in the buffers. *)
From Coq Require Import String Ascii List NArith ZArith Bool Arith Lia.
From Verif Require Import Base LayoutModel LayoutSpec LayoutProofs LayoutProofs2 LayoutProofs3.
Import ListNotations.
Open Scope list_scope.

(* ---- enough room ---- *)
Lemma max_lt : forall n l, 0 < n -> Forall (fun x => x < n) l -> fold_right Nat.max 0 l < n.
Proof. intros n l Hn H. induction H as [|x l Hx H IH]; cbn [fold_right]; lia. Qed.
Lemma room_wide : forall g, room g -> wide (Block (g_loj g) (g_eng g) (g_tags g)) < 512.
Proof.
  intros g (R1 & R2 & R3 & R4 & R5). apply max_lt; [lia|]. cbn [loj eng tags]. constructor; [exact R1|]. constructor; [exact R2|].
  apply Forall_forall. intros x Hx. apply in_map_iff in Hx. destruct Hx as (t & <- & Ht). revert t Ht. apply Forall_forall, R5.
Qed.
Lemma flush_safe : forall W s g evs, Inv W s g evs -> Forall solid (block_of g) -> room g -> (W < 512)%Z ->
  exists s', flush_block s = Ok s'.
Proof.
  intros W s g evs (HB & HP & HF & HM & PG) HS R HW. unfold flush_block.
  rewrite (gempty_blk g (t_blk s) HB). unfold block_of in HS. unfold gempty.
  destruct (_ && _ && _); [eexists; reflexivity|].
  assert (HT : List.length (g_tags g) <= 32) by apply R.
  pose proof HB as (B1 & B2 & B3 & B4 & B5).
  destruct (Nat.ltb_spec max_tags (b_used (t_blk s))) as [X|_]; [change max_tags with 32 in X; lia|].
  rewrite (blk_wide g (t_blk s) HB HT). pose proof (room_wide g R) as RW.
  set (b := Block (g_loj g) (g_eng g) (g_tags g)) in *. rewrite HM.
  inversion HS as [|? ? Hw _]; subst. cbn in Hw.
  destruct (page_place (t_max s) evs (t_line s) (t_out s) b PG Hw) as (cur & HL & HC & _). cbv zeta in HL.
  set (s1 := if (Z.of_nat (wide b + l_width (t_line s)) >? t_max s)%Z then flush_line s else s) in *.
  assert (E1 : t_line s1 = if (Z.of_nat (wide b + l_width (t_line s)) >? t_max s)%Z then (if Nat.eqb (l_width (t_line s)) 0 then t_line s else line0) else t_line s).
  { unfold s1, flush_line. destruct (_ >? _)%Z; [destruct (Nat.eqb _ 0); reflexivity|reflexivity]. }
  assert (HL' : Line_of cur (t_line s1)) by (rewrite E1; exact HL). clear HL E1. clearbody s1.
  assert (CW : width cur + wide b < 512) by (destruct HC as [->|HC]; [exact RW|lia]).
  destruct HL' as (L1 & L2 & L3 & L4 & L5 & L6 & L7).
  pose proof (loj_wide b) as W1. pose proof (eng_wide b) as W2. cbn [loj eng b] in W1, W2.
  rewrite append_do; [|rewrite B1; exact W1|rewrite L1, loj_row; exact CW]. cbn [obind].
  rewrite append_do; [|rewrite B2; exact W2|rewrite L2, eng_row; exact CW]. cbn [obind].
  destruct (tag_lines_do (l_tags (t_line s1)) (b_used (t_blk s)) (l_used (t_line s1)) (l_width (t_line s1)) (wide b) (b_tags (t_blk s))) as [z Hz].
  - rewrite B3. eapply Nat.le_trans; [exact HT|apply Nat.eq_le_incl; symmetry; exact L5].
  - rewrite L4. eapply Nat.le_trans; [exact L6|apply Nat.eq_le_incl; symmetry; exact L5].
  - rewrite L3. exact CW.
  - intros i Hi. rewrite B5, app_nth1 by lia. exact (tag_wide i b).
  - intro i. rewrite L7, <- L4, L3. destruct (Nat.ltb i _); [apply tag_row|reflexivity].
  - rewrite Hz. eexists. reflexivity.
Qed.
Lemma add_safe : forall t s g W evs, Inv W s g evs -> List.length (g_tags g) < 32 -> List.length (g_part g ++ t) < 512 ->
  exists s', add_tag t s = Ok s'.
Proof.
  intros t s g W evs ((B1 & B2 & B3 & B4 & B5) & _) H1 H2. unfold add_tag.
  destruct (Nat.leb_spec max_tags (b_used (t_blk s))) as [X|X]; [change max_tags with 32 in X; lia|].
  rewrite app_length in H2.
  rewrite B5, B3, nth_snoc, Nat.eqb_refl, cat_do by lia. eexists. reflexivity.
Qed.
Lemma signs_safe : forall x sub g b, room (signs x sub g) -> exists b', bracket_blk x sub b = Ok b'.
Proof.
  intros [[a1 a2] a3] sub g b (_ & _ & _ & _ & R). cbn [signs g_tags] in R. inversion R as [|? ? _ R2]; subst. inversion R2 as [|? ? R3 _]; subst.
  unfold bracket_blk. destruct (Nat.leb_spec buffer_size (List.length (spaced sub))) as [X|X]; [change buffer_size with 512 in X; lia|].
  eexists. reflexivity.
Qed.
Lemma step_safe : forall W o s g evs e g', Inv W s g evs -> group o g = Some (e, g') -> Forall solid e -> (W < 512)%Z ->
  room g -> room g' -> (writes_tag o = true -> List.length (g_tags g) < 32) -> exists s', step o s = Ok s'.
Proof.
  intros W o s g evs e g' I G HS HW R R' WT. pose proof I as (HB & HP & HF & HM & PG).
  destruct o as [t sub|t sub|n|t|t| | | |brivla place trans brac|t]; cbn [step group] in *.
  - destruct (open_signs t) as [x|]; [|eexists; reflexivity].
    destruct (empty (g_part (cleared g))); [|discriminate]. injection G as <- <-. apply Forall_app in HS. destruct HS as [S1 S2].
    destruct (flush_safe W s g evs I S1 R HW) as [s1 F].
    assert (X : exists s1, (if negb (empty (b_loj (t_blk s))) || negb (empty (b_eng (t_blk s))) || Nat.ltb 0 (b_used (t_blk s)) then flush_block s else Ok s) = Ok s1)
      by (destruct (_ || _ || _); eexists; [exact F|reflexivity]).
    clear s1 F. destruct X as [s1 ->]. cbn [obind].
    destruct (signs_safe x sub (rested (cleared g)) (t_blk (clear_eols s1)) R') as [b' ->]. eexists. reflexivity.
  - destruct (close_signs t) as [x|]; [|eexists; reflexivity]. rewrite (texts_blk g (t_blk s) HB).
    destruct (texts g).
    + injection G as <- <-. destruct (flush_safe W s g evs I HS R HW) as [s1 ->]. cbn [obind].
      destruct (signs_safe x sub _ (t_blk s1) R') as [b' ->]. eexists. reflexivity.
    + destruct (_ && _); [|discriminate]. injection G as <- <-. cbn [obind].
      destruct (signs_safe x sub _ (t_blk s) R') as [b' ->]. eexists. reflexivity.
  - eexists. reflexivity.
  - assert (X : exists e1 g1, (if empty (g_eng g) then ([], g) else (block_of g, cleared g)) = (e1, g1)) by (eexists; eexists; apply surjective_pairing).
    destruct X as (e1 & g1 & X). rewrite X in G. injection G as <- <-. apply Forall_app in HS. destruct HS as [S1 S2].
    assert (Y : exists s1, (if negb (empty (b_eng (t_blk s))) then flush_block s else Ok s) = Ok s1 /\ Inv W s1 g1 (evs ++ e1)).
    { replace (empty (b_eng (t_blk s))) with (empty (g_eng g)) by (destruct HB as (_ & -> & _); reflexivity).
      destruct (empty (g_eng g)); cbn [negb]; injection X as <- <-.
      - exists s. rewrite app_nil_r. auto.
      - destruct (flush_safe W s g evs I S1 R HW) as [s1 F]. exists s1. split; [exact F|]. apply inv_flush with (s := s); assumption. }
    destruct Y as (s1 & -> & I1). cbn [obind]. apply inv_eols in I1. destruct I1 as ((B1 & _) & _).
    destruct R' as (R1 & _). cbn [g_loj rested] in R1, B1. unfold spaced in R1. rewrite !app_length in R1. cbn [List.length] in R1.
    rewrite B1, cat_do by lia. cbn [obind]. rewrite cat_do by (rewrite app_length; cbn [lit list_ascii_of_string List.length]; lia).
    eexists. reflexivity.
  - injection G as <- <-. destruct R' as (_ & R2 & _). cbn [g_eng] in R2. destruct HB as (_ & B2 & _).
    destruct (dollar t).
    + rewrite app_length in R2. rewrite B2, cat_do by lia. eexists. reflexivity.
    + unfold spaced in R2. rewrite !app_length in R2. cbn [List.length] in R2.
      rewrite B2, cat_do by lia. cbn [obind]. rewrite cat_do by (rewrite app_length; cbn [lit list_ascii_of_string List.length]; lia).
      eexists. reflexivity.
  - rewrite (texts_blk g (t_blk s) HB). destruct (texts g) eqn:TE; [|eexists; reflexivity].
    injection G as <- <-. apply Forall_app in HS. destruct HS as [S1 S2].
    destruct (flush_safe W s g evs I S1 R HW) as [s1 ->]. eexists. reflexivity.
  - eexists. reflexivity.
  - eexists. reflexivity.
  - specialize (WT eq_refl).
    set (t1 := spaced (brivla ++ place)) in *. set (t2 := if brac then lit "(" ++ trans ++ lit ") " else spaced trans) in *. clearbody t1 t2.
    injection G as <- <-. destruct R' as (_ & _ & R3 & _). cbn [g_part] in R3.
    rewrite !app_length in R3.
    destruct (_ || _) eqn:E. { exfalso. apply orb_true_iff in E. destruct E as [E|E]; apply N.leb_le in E; unfold txt in *; lia. }
    destruct (add_safe t1 s g W evs I WT) as [s1 A1]; [rewrite app_length; lia|].
    rewrite A1. cbn [obind]. apply (inv_add W t1 s s1 g evs I) in A1.
    refine (add_safe t2 s1 _ W evs A1 WT _). cbn [g_part]. rewrite !app_length. lia.
  - specialize (WT eq_refl). injection G as <- <-. destruct R' as (_ & _ & R3 & _). exact (add_safe t s g W evs I WT R3).
Qed.
Lemma roomy_room : forall os g, roomy os g -> room g.
Proof. intros [|o os] g H; apply H. Qed.
Lemma steps_safe : forall W os s g evs e g', Inv W s g evs -> groups os g = Some (e, g') -> Forall solid e -> (W < 512)%Z ->
  roomy os g -> (exists s', steps os s = Ok s' /\ Inv W s' g' (evs ++ e)) /\ room g'.
Proof.
  intros W os. induction os as [|o os IH]; intros s g evs e g' I G HS HW R; cbn [groups steps roomy] in *.
  - injection G as <- <-. split; [|apply R]. exists s. rewrite app_nil_r. auto.
  - destruct R as (R & WT & RR). destruct (group o g) as [[e1 g1]|] eqn:G1; [|discriminate].
    destruct (groups os g1) as [[e2 g2]|] eqn:G2; [|discriminate]. injection G as <- <-. apply Forall_app in HS. destruct HS as [S1 S2].
    destruct (step_safe W o s g evs e1 g1 I G1 S1 HW R (roomy_room os g1 RR) WT) as [s1 H1]. rewrite H1. cbn [obind]. rewrite app_assoc.
    apply (IH s1 g1 (evs ++ e1) e2 g2); try assumption. apply (inv_step W o s g evs e1 g1 s1); assumption.
Qed.
Theorem driver_safe : forall W os evs, blocks_of os = Some evs -> Forall solid evs -> roomy os grp0 -> (W < 512)%Z ->
  exists out, run_driver W os = Ok out.
Proof.
  intros W os evs G HS R HW. unfold blocks_of in G. destruct (groups os grp0) as [[e g]|] eqn:G1; [|discriminate].
  injection G as <-. apply Forall_app in HS. destruct HS as [S1 S2].
  destruct (steps_safe W os (tb0 W) grp0 [] e g (inv0 W) G1 S1 HW R) as [(s & H1 & I) RG].
  unfold run_driver. rewrite H1. cbn [obind]. destruct (flush_safe W s g _ I S2 RG HW) as [s' ->]. eexists. reflexivity.
Qed.

(* ---- too little ---- *)
Definition narrow (e : ev) : Prop := match e with B b => wide b < 512 /\ List.length (tags b) <= 32 | Rest _ => True end.
Lemma append_room : forall src d wid r, append_to_width src d wid = Ok r -> List.length d + wid < 512.
Proof.
  intros src d wid r H. unfold append_to_width in H. destruct (_ || _) eqn:E; [discriminate|].
  apply orb_false_iff in E. destruct E as [E1 E2]. apply Z.ltb_ge in E1.
  apply obind_ok in H. destruct H as (x & H1 & H2). apply cat_ok in H1. subst x.
  unfold cat in H2. destruct (Nat.leb_spec buffer_size (List.length (d ++ src) + List.length (repeat " "%char (Z.to_nat (Z.of_nat wid - Z.of_nat (List.length src)))))) as [X|X]; [discriminate|].
  change buffer_size with 512 in X. rewrite app_length, repeat_length in X. lia.
Qed.
Lemma flush_narrow : forall g s s', Blk_of g (t_blk s) -> flush_block s = Ok s' -> Forall narrow (block_of g).
Proof.
  intros g s s' HB H. unfold flush_block in H. rewrite (gempty_blk g (t_blk s) HB) in H. unfold gempty in H. unfold block_of.
  destruct (_ && _ && _); [constructor|].
  destruct (Nat.ltb_spec max_tags (b_used (t_blk s))) as [X|X]; [discriminate|]. change max_tags with 32 in X.
  assert (HT : List.length (g_tags g) <= 32) by (destruct HB as (_ & _ & <- & _); lia).
  rewrite (blk_wide g (t_blk s) HB HT) in H. apply obind_ok in H. destruct H as (x & H & _). apply append_room in H.
  constructor; [unfold narrow; cbn [tags]; lia|constructor].
Qed.
Lemma step_narrow : forall W o s g evs e g' s', Inv W s g evs -> group o g = Some (e, g') -> step o s = Ok s' -> Forall narrow e.
Proof.
  intros W o s g evs e g' s' I G H. pose proof I as (HB & HP & HF & HM & PG).
  assert (RN : forall g, Forall narrow (rest_of g)) by (intro g0; unfold rest_of; destruct (N.ltb 0 _); [constructor; [exact Logic.I|]|]; constructor).
  destruct o as [t sub|t sub|n|t|t| | | |brivla place trans brac|t]; cbn [step group] in *.
  - destruct (open_signs t) as [x|]; [|injection G as <- <-; constructor].
    destruct (empty (g_part (cleared g))); [|discriminate]. injection G as <- <-.
    apply Forall_app. split; [|apply RN]. rewrite (any_blk g (t_blk s) HB) in H.
    apply obind_ok in H. destruct H as (s1 & H1 & _). destruct (gempty g) eqn:GE; cbn [negb] in H1.
    + destruct (gempty_block g GE) as [-> _]. constructor.
    + apply (flush_narrow g s s1 HB H1).
  - destruct (close_signs t) as [x|]; [|injection G as <- <-; constructor]. rewrite (texts_blk g (t_blk s) HB) in H.
    apply obind_ok in H. destruct H as (s1 & H1 & _). destruct (texts g).
    + injection G as <- <-. apply (flush_narrow g s s1 HB H1).
    + destruct (_ && _); [|discriminate]. injection G as <- <-. constructor.
  - injection G as <- <-. constructor.
  - apply obind_ok in H. destruct H as (s1 & H1 & _).
    replace (empty (b_eng (t_blk s))) with (empty (g_eng g)) in H1 by (destruct HB as (_ & -> & _); reflexivity).
    destruct (empty (g_eng g)); cbn [negb] in H1; injection G as <- <-.
    + apply RN.
    + apply Forall_app. split; [|apply RN]. apply (flush_narrow g s s1 HB H1).
  - injection G as <- <-. constructor.
  - rewrite (texts_blk g (t_blk s) HB) in H. apply obind_ok in H. destruct H as (s1 & H1 & _).
    destruct (texts g); injection G as <- <-.
    + apply Forall_app. split; [|apply RN]. apply (flush_narrow g s s1 HB H1).
    + apply RN.
  - injection G as <- <-. constructor.
  - injection G as <- <-. constructor.
  - injection G as <- <-. constructor.
  - injection G as <- <-. constructor.
Qed.
Lemma steps_narrow : forall W os s g evs e g' s', Inv W s g evs -> groups os g = Some (e, g') -> Forall solid e ->
  steps os s = Ok s' -> Forall narrow e.
Proof.
  intros W os. induction os as [|o os IH]; intros s g evs e g' s' I G HS H; cbn [groups steps] in *.
  - injection G as <- <-. constructor.
  - destruct (group o g) as [[e1 g1]|] eqn:G1; [|discriminate]. destruct (groups os g1) as [[e2 g2]|] eqn:G2; [|discriminate].
    injection G as <- <-. apply Forall_app in HS. destruct HS as [S1 S2].
    apply obind_ok in H. destruct H as (s1 & H1 & H2). apply Forall_app. split.
    + apply (step_narrow W o s g evs e1 g1 s1); assumption.
    + apply (IH s1 g1 (evs ++ e1) e2 g2 s'); try assumption. apply (inv_step W o s g evs e1 g1 s1); assumption.
Qed.
Theorem driver_narrow : forall W os evs out, blocks_of os = Some evs -> Forall solid evs -> run_driver W os = Ok out ->
  Forall narrow evs.
Proof.
  intros W os evs out G HS H. unfold blocks_of in G. destruct (groups os grp0) as [[e g]|] eqn:G1; [|discriminate].
  injection G as <-. apply Forall_app in HS. destruct HS as [S1 S2].
  unfold run_driver in H. apply obind_ok in H. destruct H as (s & H1 & H). apply obind_ok in H. destruct H as (s' & H2 & H).
  apply Forall_app. split.
  - apply (steps_narrow W os (tb0 W) grp0 [] e g s (inv0 W) G1 S1 H1).
  - apply (flush_narrow g s s'); [|exact H2]. apply (inv_steps W os (tb0 W) grp0 [] e g s (inv0 W) G1 S1 H1).
Qed.

(* room, computed *)
Definition roomb (g : grp) : bool :=
  Nat.ltb (List.length (g_loj g)) 512 && Nat.ltb (List.length (g_eng g)) 512 && Nat.ltb (List.length (g_part g)) 512
  && Nat.leb (List.length (g_tags g)) 32 && forallb (fun t => Nat.ltb (List.length t) 512) (g_tags g).
Fixpoint roomyb (os : list op) (g : grp) : bool :=
  roomb g &&
  match os with
  | [] => true
  | o :: os => (negb (writes_tag o) || Nat.ltb (List.length (g_tags g)) 32)
               && match group o g with Some (_, g) => roomyb os g | None => true end
  end.
Lemma roomb_room : forall g, roomb g = true -> room g.
Proof.
  intros g H. unfold roomb in H. apply andb_true_iff in H. destruct H as [H H5]. apply andb_true_iff in H. destruct H as [H H4].
  apply andb_true_iff in H. destruct H as [H H3]. apply andb_true_iff in H. destruct H as [H1 H2].
  apply Nat.ltb_lt in H1. apply Nat.ltb_lt in H2. apply Nat.ltb_lt in H3. apply Nat.leb_le in H4.
  split; [exact H1|]. split; [exact H2|]. split; [exact H3|]. split; [exact H4|].
  apply Forall_forall. intros t Ht. rewrite forallb_forall in H5. apply Nat.ltb_lt, H5, Ht.
Qed.
Lemma roomyb_roomy : forall os g, roomyb os g = true -> roomy os g.
Proof.
  induction os as [|o os IH]; intros g H; cbn [roomyb roomy] in *; apply andb_true_iff in H; destruct H as [H1 H2];
    (split; [apply roomb_room, H1|]); [exact I|].
  apply andb_true_iff in H2. destruct H2 as [H2 H3]. split.
  - intro W. rewrite W in H2. apply Nat.ltb_lt, H2.
  - destruct (group o g) as [[e g']|]; [apply IH, H3|exact I].
Qed.
