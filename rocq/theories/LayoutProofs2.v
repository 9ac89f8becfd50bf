(* The state of the driver, and what it prints. *)
From Coq Require Import String Ascii List NArith ZArith Bool Arith Lia.
From Verif Require Import Base LayoutModel LayoutSpec LayoutProofs.
Import ListNotations.
Open Scope list_scope.

(* ---- one more block on the line ---- *)
Lemma fold_max : forall l a, fold_left Nat.max l a = Nat.max a (fold_right Nat.max 0 l).
Proof. induction l as [|x l IH]; intro a; cbn [fold_left fold_right]; [lia|]. rewrite IH. lia. Qed.
Lemma line_add : forall cur l b x y z ts, Line_of cur l -> List.length (tags b) <= 32 ->
  append_to_width (loj b) (l_loj l) (wide b) = Ok x ->
  append_to_width (eng b) (l_eng l) (wide b) = Ok y ->
  tag_lines (List.length (tags b)) (l_used l) (l_width l) (wide b) ts (l_tags l) = Ok z ->
  (forall i, i < List.length (tags b) -> nth i ts [] = tag i b) ->
  Line_of (cur ++ [b]) (Line x y z (Nat.max (List.length (tags b)) (l_used l)) (l_width l + wide b)).
Proof.
  intros cur l b x y z ts (L1 & L2 & L3 & L4 & L5 & L6 & L7) HT Hx Hy Hz Hn.
  apply append_ok in Hx. apply append_ok in Hy. apply tag_lines_ok in Hz. destruct Hz as [Z1 Z2].
  unfold Line_of. cbn [l_loj l_eng l_tags l_used l_width].
  rewrite !row_app, !row_one, width_app, width_one, tag_rows_app, tag_rows_one, <- L1, <- L2, <- L3, <- L4.
  split; [exact Hx|]. split; [exact Hy|]. split; [reflexivity|]. split; [lia|]. split; [lia|]. split; [lia|].
  intro i. rewrite row_app, row_one.
  destruct (Nat.lt_ge_cases i 32) as [Hi|Hi].
  2:{ rewrite nth_overflow by lia. destruct (Nat.ltb_spec i (Nat.max (l_used l) (List.length (tags b)))); [lia|reflexivity]. }
  rewrite Z2 by lia. unfold tag_after. rewrite L7, <- L4.
  destruct (Nat.ltb_spec i (List.length (tags b))) as [A|A]; destruct (Nat.ltb_spec i (l_used l)) as [C|C];
    destruct (Nat.ltb_spec i (Nat.max (l_used l) (List.length (tags b)))) as [D|D]; try lia.
  - rewrite Hn by exact A. reflexivity.
  - rewrite Hn by exact A. cbn [app]. f_equal. rewrite L3. symmetry. apply row_beyond. lia.
  - unfold tag. rewrite nth_overflow by exact A. rewrite pad_nil. reflexivity.
  - reflexivity.
Qed.

(* ---- the block being built ---- *)
Definition Blk_of (g : grp) (b : blk) : Prop :=
  b_loj b = g_loj g /\ b_eng b = g_eng g /\ b_used b = List.length (g_tags g) /\ List.length (b_tags b) = 32
  /\ forall i, nth i (b_tags b) [] = nth i (g_tags g ++ [g_part g]) [].
Lemma blk0_of : forall n f, Blk_of (Grp [] [] [] [] n f) blk0.
Proof.
  intros n f. repeat split. intro i. cbn [g_tags g_part app]. unfold blk0. cbn [b_tags]. rewrite nth_repeat_nil.
  destruct i as [|[|i]]; reflexivity.
Qed.
Lemma blk_tags : forall g b, Blk_of g b -> List.length (g_tags g) <= 32 -> firstn (b_used b) (b_tags b) = g_tags g.
Proof.
  intros g b (B1 & B2 & B3 & B4 & B5) H. rewrite B3. apply nth_ext with (d := []) (d' := []).
  - rewrite firstn_length. lia.
  - intros i Hi. rewrite firstn_length in Hi.
    assert (E : nth i (b_tags b) [] = nth i (g_tags g) []) by (rewrite B5; apply app_nth1; lia).
    rewrite <- E. rewrite <- (firstn_skipn (List.length (g_tags g)) (b_tags b)) at 2.
    rewrite app_nth1; [reflexivity|rewrite firstn_length; lia].
Qed.
Lemma blk_wide : forall g b, Blk_of g b -> List.length (g_tags g) <= 32 ->
  fold_left Nat.max (map (@List.length _) (firstn (b_used b) (b_tags b))) (Nat.max (List.length (b_loj b)) (List.length (b_eng b)))
  = wide (Block (g_loj g) (g_eng g) (g_tags g)).
Proof.
  intros g b HB HT. rewrite (blk_tags g b HB HT), fold_max. destruct HB as (-> & -> & _).
  unfold wide. cbn [loj eng tags fold_right]. lia.
Qed.

(* ---- the page so far ---- *)
Definition closed (W : Z) (evs : list ev) (P : txt) : Prop :=
  forall evs' out', laid W evs' out' -> laid W (evs ++ evs') (P ++ out').
Definition lines_of (W : Z) (bs : list block) (fl : list (list block)) (cur : list block) : Prop :=
  (bs = [] /\ fl = [] /\ cur = []) \/ (cur <> [] /\ broken W bs (fl ++ [cur])).
Definition Page (W : Z) (evs : list ev) (l : line) (out : txt) : Prop :=
  exists P evs0 bs fl cur, out = P ++ concat (map printed fl) /\ evs = evs0 ++ map B bs /\ closed W evs0 P
    /\ Line_of cur l /\ lines_of W bs fl cur /\ Forall (fun b => 0 < wide b) bs.

Lemma page0 : forall W, Page W [] line0 [].
Proof.
  intro W. exists [], [], [], [], []. split; [reflexivity|]. split; [reflexivity|]. split; [intros e o H; exact H|].
  split; [apply line0_of|]. split; [left; auto|constructor].
Qed.
Lemma width_pos : forall bs, Forall (fun b => 0 < wide b) bs -> bs <> [] -> 0 < width bs.
Proof. intros bs H N. destruct H as [|b bs Hb H]; [tauto|]. change (width (b :: bs)) with (wide b + width bs). lia. Qed.
Lemma cur_pos : forall W bs fl cur, lines_of W bs fl cur -> Forall (fun b => 0 < wide b) bs -> cur <> [] -> 0 < width cur.
Proof.
  intros W bs fl cur [(_ & _ & ->)|(N & C & _)] H Hc; [tauto|]. apply width_pos; [|exact N].
  rewrite concat_app in C. cbn in C. rewrite app_nil_r in C. subst bs. apply Forall_app in H. tauto.
Qed.

(* what flush_line does *)
Definition line_out (l : line) : txt := if Nat.eqb (l_width l) 0 then [] else line_text l.
Lemma flush_line_eq : forall s, l_width (t_line s) <> 0 ->
  flush_line s = TB (t_blk s) line0 (t_pending s) (t_first s) (t_max s) (t_out s ++ line_text (t_line s)).
Proof. intros s H. unfold flush_line. destruct (Nat.eqb_spec (l_width (t_line s)) 0); [tauto|reflexivity]. Qed.
Lemma flush_line_noop : forall s, l_width (t_line s) = 0 -> flush_line s = s.
Proof. intros s H. unfold flush_line. rewrite H. reflexivity. Qed.

(* the page ends *)
Lemma page_done : forall W evs l out, Page W evs l out -> laid W evs (out ++ line_out l).
Proof.
  intros W evs l out (P & evs0 & bs & fl & cur & -> & -> & C & HL & LO & S).
  pose proof HL as (_ & _ & L3 & _).
  destruct LO as [(-> & -> & ->)|(N & BR)].
  - unfold line_out. rewrite L3. cbn [width map fold_right Nat.eqb concat]. rewrite <- app_assoc. apply C. apply (laid_end W [] []). apply broken_nil.
  - pose proof (cur_pos W bs fl cur (or_intror (conj N BR)) S N) as CP.
    unfold line_out. rewrite L3. destruct (Nat.eqb_spec (width cur) 0) as [E|E]; [lia|].
    rewrite <- app_assoc. apply C. rewrite (line_printed cur l HL).
    replace (concat (map printed fl) ++ printed cur) with (concat (map printed (fl ++ [cur]))).
    + apply laid_end. exact BR.
    + rewrite map_app, concat_app. cbn. rewrite app_nil_r. reflexivity.
Qed.
(* a break *)
Lemma page_rest : forall W evs l out n, Page W evs l out ->
  Page W (evs ++ [Rest n]) line0 (out ++ line_out l ++ sep n).
Proof.
  intros W evs l out n (P & evs0 & bs & fl & cur & -> & -> & C & HL & LO & S).
  pose proof HL as (_ & _ & L3 & _).
  exists ((P ++ concat (map printed fl)) ++ line_out l ++ sep n), ((evs0 ++ map B bs) ++ [Rest n]), [], [], [].
  split; [cbn; rewrite app_nil_r; reflexivity|]. split; [cbn; rewrite app_nil_r; reflexivity|].
  split; [|split; [apply line0_of|split; [left; auto|constructor]]].
  intros e o H. rewrite <- !app_assoc. apply C. cbn [app].
  destruct LO as [(-> & -> & ->)|(N & BR)].
  - unfold line_out. rewrite L3. cbn [width map fold_right Nat.eqb app concat].
    apply (laid_rest W [] [] n e o); [apply broken_nil|exact H].
  - pose proof (cur_pos W bs fl cur (or_intror (conj N BR)) S N) as CP.
    unfold line_out. rewrite L3. destruct (Nat.eqb_spec (width cur) 0) as [E|E]; [lia|].
    rewrite (line_printed cur l HL).
    replace (concat (map printed fl) ++ printed cur ++ sep n ++ o) with (concat (map printed (fl ++ [cur])) ++ sep n ++ o).
    + apply laid_rest; assumption.
    + rewrite map_app, concat_app. cbn. rewrite app_nil_r, <- app_assoc. reflexivity.
Qed.

(* ---- the state ---- *)
Definition Inv (W : Z) (s : tb) (g : grp) (evs : list ev) : Prop :=
  Blk_of g (t_blk s) /\ t_pending s = g_eols g /\ t_first s = g_first g /\ t_max s = W /\ Page W evs (t_line s) (t_out s).
Lemma inv0 : forall W, Inv W (tb0 W) grp0 [].
Proof. intro W. split; [apply blk0_of|]. repeat split. apply page0. Qed.
Definition gempty (g : grp) : bool := empty (g_loj g) && empty (g_eng g) && Nat.eqb (List.length (g_tags g)) 0.
Lemma gempty_blk : forall g b, Blk_of g b -> empty (b_loj b) && empty (b_eng b) && Nat.eqb (b_used b) 0 = gempty g.
Proof. intros g b (-> & -> & -> & _). reflexivity. Qed.

(* the place where a block goes *)
Lemma page_place : forall W evs l out b, Page W evs l out -> 0 < wide b ->
  let nl := (Z.of_nat (wide b + l_width l) >? W)%Z in
  let l' := if nl then (if Nat.eqb (l_width l) 0 then l else line0) else l in
  let out' := if nl then out ++ line_out l else out in
  exists cur', Line_of cur' l' /\ (cur' = [] \/ (Z.of_nat (width cur' + wide b) <= W)%Z)
    /\ forall l'', Line_of (cur' ++ [b]) l'' -> Page W (evs ++ [B b]) l'' out'.
Proof.
  intros W evs l out b (P & evs0 & bs & fl & cur & -> & -> & C & HL & LO & S) Hb nl l' out'.
  pose proof HL as (_ & _ & L3 & _).
  assert (S' : Forall (fun b => 0 < wide b) (bs ++ [b])) by (apply Forall_app; split; [exact S|constructor; [exact Hb|constructor]]).
  assert (E : (evs0 ++ map B bs) ++ [B b] = evs0 ++ map B (bs ++ [b])) by (rewrite map_app, app_assoc; reflexivity).
  destruct LO as [(-> & -> & ->)|(N & BR)].
  - exists []. assert (Hw : l_width l = 0) by (rewrite L3; reflexivity).
    assert (Hl' : l' = l) by (unfold l'; rewrite Hw; destruct nl; reflexivity).
    assert (Ho : out' = P ++ concat (map printed [])) by (unfold out', line_out; rewrite Hw; destruct nl; cbn [map concat Nat.eqb]; [rewrite <- app_assoc|]; reflexivity).
    rewrite Hl', Ho. split; [exact HL|]. split; [left; reflexivity|].
    intros l'' H. exists P, evs0, [b], [], [b]. split; [reflexivity|]. split; [exact E|]. split; [exact C|]. split; [exact H|].
    split; [right; split; [discriminate|apply broken_first]|exact S'].
  - pose proof (cur_pos W bs fl cur (or_intror (conj N BR)) S N) as CP.
    unfold l', out', nl. clear l' out' nl. destruct (Nat.eqb_spec (l_width l) 0) as [X|_]; [lia|]. rewrite L3.
    destruct (Z.gtb_spec (Z.of_nat (wide b + width cur)) W) as [HW|HW].
    + exists []. split; [apply line0_of|]. split; [left; reflexivity|].
      intros l'' H. exists P, evs0, (bs ++ [b]), (fl ++ [cur]), [b].
      split.
      { rewrite map_app, concat_app. cbn. rewrite app_nil_r, app_assoc. f_equal. unfold line_out. rewrite L3.
        destruct (Nat.eqb_spec (width cur) 0); [lia|]. apply line_printed, HL. }
      split; [exact E|]. split; [exact C|]. split; [exact H|]. split; [|exact S'].
      right. split; [discriminate|]. apply broken_new; [exact BR|lia].
    + exists cur. split; [exact HL|]. split; [right; lia|].
      intros l'' H. exists P, evs0, (bs ++ [b]), fl, (cur ++ [b]). split; [reflexivity|].
      split; [exact E|]. split; [exact C|]. split; [exact H|]. split; [|exact S'].
      right. split; [destruct cur; discriminate|]. apply broken_same; [exact N|exact BR|lia].
Qed.

Lemma inv_flush : forall W s g evs s', Inv W s g evs -> Forall solid (block_of g) -> flush_block s = Ok s' ->
  Inv W s' (cleared g) (evs ++ block_of g).
Proof.
  intros W s g evs s' (HB & HP & HF & HM & PG) HS H. unfold flush_block in H.
  rewrite (gempty_blk g (t_blk s) HB) in H. unfold block_of, cleared in *. unfold gempty in H.
  destruct (_ && _ && _); [injection H as <-; rewrite app_nil_r; repeat (split; [assumption|]); exact PG|].
  destruct (Nat.ltb_spec max_tags (b_used (t_blk s))) as [X|X]; [discriminate|]. change max_tags with 32 in X.
  assert (HT : List.length (g_tags g) <= 32) by (destruct HB as (_ & _ & <- & _); lia).
  rewrite (blk_wide g (t_blk s) HB HT) in H.
  set (b := Block (g_loj g) (g_eng g) (g_tags g)) in *. rewrite HM in H.
  inversion HS as [|? ? Hw _]; subst. cbn in Hw.
  destruct (page_place (t_max s) evs (t_line s) (t_out s) b PG Hw) as (cur & HL & _ & HN). cbv zeta in HL, HN.
  set (s1 := if (Z.of_nat (wide b + l_width (t_line s)) >? t_max s)%Z then flush_line s else s) in *.
  assert (E1 : t_line s1 = if (Z.of_nat (wide b + l_width (t_line s)) >? t_max s)%Z then (if Nat.eqb (l_width (t_line s)) 0 then t_line s else line0) else t_line s).
  { unfold s1, flush_line. destruct (_ >? _)%Z; [destruct (Nat.eqb _ 0); reflexivity|reflexivity]. }
  assert (E2 : t_out s1 = if (Z.of_nat (wide b + l_width (t_line s)) >? t_max s)%Z then t_out s ++ line_out (t_line s) else t_out s).
  { unfold s1, flush_line, line_out. destruct (_ >? _)%Z; [destruct (Nat.eqb _ 0); [rewrite app_nil_r; reflexivity|reflexivity]|reflexivity]. }
  assert (E3 : t_pending s1 = t_pending s /\ t_first s1 = t_first s /\ t_max s1 = t_max s).
  { unfold s1, flush_line. destruct (_ >? _)%Z; [destruct (Nat.eqb _ 0); auto|auto]. }
  assert (HL' : Line_of cur (t_line s1)) by (rewrite E1; exact HL).
  assert (HN' : forall l, Line_of (cur ++ [b]) l -> Page (t_max s) (evs ++ [B b]) l (t_out s1)) by (intros l Hl; rewrite E2; exact (HN l Hl)).
  clear HL HN. rename HL' into HL. rename HN' into HN. clearbody s1. clear E1 E2.
  apply obind_ok in H. destruct H as (x & Hx & H). apply obind_ok in H. destruct H as (y & Hy & H).
  apply obind_ok in H. destruct H as (z & Hz & H). injection H as <-.
  assert (BB := HB). destruct BB as (B1 & B2 & B3 & B4 & B5).
  rewrite B1 in Hx. rewrite B2 in Hy. rewrite B3 in Hz. destruct E3 as (-> & -> & ->).
  split; [apply blk0_of|]. cbn [t_pending t_first t_max t_line t_out g_eols g_first].
  split; [exact HP|]. split; [exact HF|]. split; [reflexivity|]. apply HN. rewrite B3.
  apply (line_add cur (t_line s1) b x y z (b_tags (t_blk s)) HL HT Hx Hy Hz).
  intros i Hi. rewrite B5. unfold tag. apply app_nth1, Hi.
Qed.
Lemma inv_eols : forall W s g evs, Inv W s g evs -> Inv W (clear_eols s) (rested g) (evs ++ rest_of g).
Proof.
  intros W s g evs (HB & HP & HF & HM & PG). unfold clear_eols, rest_of. rewrite HP.
  destruct (N.ltb_spec 0 (g_eols g)) as [L|L].
  - assert (E : Page W (evs ++ [Rest (g_eols g)]) line0 (t_out s ++ line_out (t_line s) ++ sep (g_eols g))) by (apply page_rest, PG).
    unfold line_out in E. unfold flush_line. destruct (Nat.eqb_spec (l_width (t_line s)) 0) as [X|X]; cbn [t_blk t_line t_pending t_first t_max t_out] in *.
    + rewrite HP. split; [exact HB|]. split; [reflexivity|]. split; [exact HF|]. split; [exact HM|].
      cbn [app t_line t_out t_blk] in *. 
      destruct PG as (P & evs0 & bs & fl & cur & EO & EE & C & HL & LO & S).
      destruct E as (P' & evs0' & bs' & fl' & cur' & EO' & EE' & C' & HL' & LO' & S').
      exists P', evs0', bs', fl', cur'. split; [exact EO'|]. split; [exact EE'|]. split; [exact C'|].
      split; [|split; [exact LO'|exact S']].
      assert (cur = []) as ->.
      { destruct cur as [|c cur]; [reflexivity|]. pose proof (cur_pos W bs fl (c :: cur) LO S ltac:(discriminate)).
        destruct HL as (_ & _ & L3 & _). rewrite L3 in X. lia. }
      assert (cur' = []) as ->; [|exact HL].
      destruct cur' as [|c cur']; [reflexivity|]. pose proof (cur_pos W bs' fl' (c :: cur') LO' S' ltac:(discriminate)) as Z.
      destruct HL' as (_ & _ & L3 & _). cbn [l_width line0] in L3. lia.
    + rewrite HP. split; [exact HB|]. split; [reflexivity|]. split; [exact HF|]. split; [exact HM|].
      rewrite <- app_assoc. exact E.
  - rewrite app_nil_r. split; [exact HB|]. split; [cbn; lia|]. split; [exact HF|]. split; [exact HM|exact PG].
Qed.
