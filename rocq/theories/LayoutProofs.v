(* Lines and blocks. *)
From Coq Require Import String Ascii List NArith ZArith Bool Arith Lia.
From Verif Require Import Base LayoutModel LayoutSpec.
Import ListNotations.
Open Scope list_scope.

Lemma obind_ok : forall A C (e : outcome A) (f : A -> outcome C) r, obind e f = Ok r -> exists x, e = Ok x /\ f x = Ok r.
Proof. intros A C [x| | | |] f r H; cbn in H; try discriminate. exists x. split; [reflexivity|exact H]. Qed.

(* ---- rows ---- *)
Lemma pad_length : forall n t, List.length t <= n -> List.length (pad n t) = n.
Proof. intros n t H. unfold pad. rewrite app_length, repeat_length. lia. Qed.
Lemma width_app : forall a b, width (a ++ b) = width a + width b.
Proof. intros a b. induction a as [|x a IH]; [reflexivity|]. unfold width in *. cbn [map fold_right app]. rewrite IH. lia. Qed.
Lemma width_one : forall b, width [b] = wide b.
Proof. intro b. unfold width. cbn. lia. Qed.
Lemma row_app : forall f a b, row f (a ++ b) = row f a ++ row f b.
Proof. intros f a b. unfold row. rewrite map_app, concat_app. reflexivity. Qed.
Lemma row_one : forall f b, row f [b] = pad (wide b) (f b).
Proof. intros f b. unfold row. cbn. rewrite app_nil_r. reflexivity. Qed.
Lemma row_length : forall f bs, Forall (fun b => List.length (f b) <= wide b) bs -> List.length (row f bs) = width bs.
Proof.
  intros f bs H. induction H as [|b bs Hb H IH]; [reflexivity|].
  unfold row, width in *. cbn [map concat fold_right]. rewrite app_length, IH, pad_length by exact Hb. reflexivity.
Qed.
Lemma max_in : forall x l, In x l -> x <= fold_right Nat.max 0 l.
Proof. intros x l. induction l as [|a l IH]; cbn [In fold_right]; [tauto|]. intros [->|H]; [lia|]. specialize (IH H). lia. Qed.
Lemma loj_wide : forall b, List.length (loj b) <= wide b.
Proof. intro b. apply max_in. left. reflexivity. Qed.
Lemma eng_wide : forall b, List.length (eng b) <= wide b.
Proof. intro b. apply max_in. right. left. reflexivity. Qed.
Lemma tag_wide : forall i b, List.length (tag i b) <= wide b.
Proof.
  intros i b. unfold tag. destruct (Nat.lt_ge_cases i (List.length (tags b))) as [H|H].
  - apply max_in. right. right. apply in_map, nth_In, H.
  - rewrite nth_overflow by exact H. cbn. lia.
Qed.
Lemma loj_row : forall bs, List.length (row loj bs) = width bs.
Proof. intro. apply row_length, Forall_forall. intros. apply loj_wide. Qed.
Lemma eng_row : forall bs, List.length (row eng bs) = width bs.
Proof. intro. apply row_length, Forall_forall. intros. apply eng_wide. Qed.
Lemma tag_row : forall i bs, List.length (row (tag i) bs) = width bs.
Proof. intros. apply row_length, Forall_forall. intros. apply tag_wide. Qed.
Lemma tag_rows_app : forall a b, tag_rows (a ++ b) = Nat.max (tag_rows a) (tag_rows b).
Proof. intros a b. unfold tag_rows. induction a as [|x a IH]; cbn [map fold_right app]; [lia|]. rewrite IH. lia. Qed.
Lemma tag_rows_one : forall b, tag_rows [b] = List.length (tags b).
Proof. intro b. unfold tag_rows. cbn. lia. Qed.
(* beyond the tag rows there are only spaces *)
Lemma row_beyond : forall i bs, tag_rows bs <= i -> row (tag i) bs = repeat " "%char (width bs).
Proof.
  intros i bs. induction bs as [|b bs IH]; intro H; [reflexivity|].
  unfold tag_rows in H. cbn [map fold_right] in H.
  change (row (tag i) (b :: bs)) with (pad (wide b) (tag i b) ++ row (tag i) bs).
  change (width (b :: bs)) with (wide b + width bs).
  rewrite repeat_app. f_equal.
  - unfold tag. rewrite nth_overflow by lia. unfold pad. cbn. rewrite Nat.sub_0_r. reflexivity.
  - apply IH. unfold tag_rows. lia.
Qed.

(* ---- appending ---- *)
Lemma cat_ok : forall d s r, cat d s = Ok r -> r = d ++ s.
Proof. intros d s r H. unfold cat in H. destruct (Nat.leb _ _); [discriminate|]. injection H as <-. reflexivity. Qed.
Lemma cat_do : forall d s, List.length d + List.length s < 512 -> cat d s = Ok (d ++ s).
Proof.
  intros d s H. unfold cat. destruct (Nat.leb_spec buffer_size (List.length d + List.length s)) as [L|L]; [|reflexivity].
  change buffer_size with 512 in L. exfalso. lia.
Qed.
Lemma append_ok : forall src d wid r, append_to_width src d wid = Ok r -> r = d ++ pad wid src.
Proof.
  intros src d wid r H. unfold append_to_width in H. destruct (_ || _) eqn:E; [discriminate|].
  apply obind_ok in H. destruct H as (x & H1 & H2). apply cat_ok in H1. apply cat_ok in H2.
  subst x. subst r. unfold pad. rewrite <- app_assoc. do 3 f_equal. lia.
Qed.
Lemma append_do : forall src d wid, List.length src <= wid -> List.length d + wid < 512 ->
  append_to_width src d wid = Ok (d ++ pad wid src).
Proof.
  intros src d wid L1 L2. unfold append_to_width.
  destruct (_ || _) eqn:E.
  { exfalso. change (Z.of_nat buffer_size) with 512%Z in E. apply orb_true_iff in E. destruct E as [E|E]; lia. }
  rewrite cat_do by lia. cbn [obind].
  replace (Z.to_nat _) with (wid - List.length src) by lia.
  rewrite cat_do; [unfold pad; rewrite app_assoc; reflexivity|]. rewrite app_length, repeat_length. lia.
Qed.

Definition tag_after (u v cur wid i : nat) (t l : txt) : txt :=
  if Nat.ltb i u then (if Nat.ltb i v then l else l ++ repeat " "%char cur) ++ pad wid t
  else if Nat.ltb i v then l ++ repeat " "%char wid else l.
Lemma pad_nil : forall n, pad n [] = repeat " "%char n.
Proof. intro n. unfold pad. cbn. rewrite Nat.sub_0_r. reflexivity. Qed.
Lemma ltb_S : forall i u, Nat.ltb (S i) u = Nat.ltb i (pred u).
Proof. intros i [|u]; reflexivity. Qed.
Lemma nth_tl : forall i (l : list txt), nth i (tl l) [] = nth (S i) l [].
Proof. intros i [|x l]; [destruct i|]; reflexivity. Qed.
Lemma tag_lines_ok : forall ls u v cur wid ts r, tag_lines u v cur wid ts ls = Ok r ->
  List.length r = List.length ls
  /\ forall i, i < List.length ls -> nth i r [] = tag_after u v cur wid i (nth i ts []) (nth i ls []).
Proof.
  induction ls as [|l ls IH]; intros u v cur wid ts r H; cbn [tag_lines] in H.
  - destruct u, v; try discriminate. injection H as <-. split; [reflexivity|]. cbn. intros. lia.
  - apply obind_ok in H. destruct H as (x & H1 & H). apply obind_ok in H. destruct H as (r' & H2 & H). injection H as <-.
    apply IH in H2. destruct H2 as [L N]. split; [cbn; rewrite L; reflexivity|].
    intros [|i] Hi.
    + clear N. cbn [nth]. unfold tag_after. destruct u as [|u].
      * destruct v as [|v]; cbn [Nat.ltb Nat.leb]; [injection H1 as <-; reflexivity|].
        apply append_ok in H1. rewrite pad_nil in H1. exact H1.
      * apply obind_ok in H1. destruct H1 as (y & H1 & H3). apply append_ok in H3. cbn [Nat.ltb Nat.leb].
        subst x. destruct ts as [|t ts]; cbn [hd nth]; destruct v as [|v]; cbn [Nat.ltb Nat.leb];
        try (apply append_ok in H1; rewrite pad_nil in H1; subst y; reflexivity); injection H1 as <-; reflexivity.
    + cbn [nth]. cbn in Hi. rewrite N by lia. unfold tag_after. rewrite !ltb_S, nth_tl. reflexivity.
Qed.
Lemma tag_lines_do : forall ls u v cur wid ts, u <= List.length ls -> v <= List.length ls -> cur + wid < 512 ->
  (forall i, i < u -> List.length (nth i ts []) <= wid) ->
  (forall i, List.length (nth i ls []) = if Nat.ltb i v then cur else 0) ->
  exists r, tag_lines u v cur wid ts ls = Ok r.
Proof.
  induction ls as [|l ls IH]; intros u v cur wid ts Hu Hv Hw Ht Hl.
  - cbn in Hu, Hv. assert (u = 0) by lia. assert (v = 0) by lia. subst. exists []. reflexivity.
  - cbn [tag_lines].
    match goal with |- exists r, obind ?e _ = _ => assert (X : exists x, e = Ok x) end.
    { pose proof (Hl 0) as L0. cbn [nth] in L0. destruct u as [|u].
      - destruct v as [|v]; [eexists; reflexivity|]. cbn in L0. rewrite append_do; [eexists; reflexivity|cbn; lia|lia].
      - pose proof (Ht 0 ltac:(lia)) as T0.
        assert (T1 : List.length (hd [] ts) <= wid) by (destruct ts; [cbn; lia|exact T0]).
        destruct v as [|v]; cbn in L0.
        + rewrite (append_do [] l cur); [|cbn; lia|lia]. cbn [obind]. rewrite append_do; [eexists; reflexivity|exact T1|].
          rewrite app_length, pad_length by (cbn; lia). lia.
        + cbn [obind]. rewrite append_do; [eexists; reflexivity|exact T1|lia]. }
    destruct X as [x ->]. cbn [obind].
    destruct (IH (pred u) (pred v) cur wid (tl ts)) as [r Hr].
    + cbn in Hu. lia.
    + cbn in Hv. lia.
    + exact Hw.
    + intros i Hi. rewrite nth_tl. apply Ht. lia.
    + intro i. specialize (Hl (S i)). cbn [nth] in Hl. rewrite ltb_S in Hl. exact Hl.
    + exists (x :: r). match goal with |- obind ?e _ = _ => replace e with (Ok r) by (symmetry; exact Hr) end. reflexivity.
Qed.

(* ---- the line buffers hold the rows ---- *)
Definition Line_of (bs : list block) (l : line) : Prop :=
  l_loj l = row loj bs /\ l_eng l = row eng bs /\ l_width l = width bs /\ l_used l = tag_rows bs
  /\ List.length (l_tags l) = 32 /\ tag_rows bs <= 32
  /\ forall i, nth i (l_tags l) [] = if Nat.ltb i (tag_rows bs) then row (tag i) bs else [].
Lemma nth_repeat_nil : forall n i, nth i (repeat ([] : txt) n) [] = [].
Proof. induction n as [|n IH]; intros [|i]; cbn; try reflexivity. apply IH. Qed.
Lemma line0_of : Line_of [] line0.
Proof.
  unfold Line_of. repeat split; try reflexivity.
  - cbn. lia.
  - intro i. unfold line0. cbn [l_tags]. rewrite nth_repeat_nil. reflexivity.
Qed.
Lemma list_by_nth : forall (l : list txt) n (f : nat -> txt), n <= List.length l ->
  (forall i, i < n -> nth i l [] = f i) -> firstn n l = map f (seq 0 n).
Proof.
  intros l n f L H. apply nth_ext with (d := []) (d' := []).
  - rewrite firstn_length, map_length, seq_length. lia.
  - intros i Hi. rewrite firstn_length in Hi.
    assert (Hi' : i < n) by lia.
    rewrite (nth_indep (map f (seq 0 n)) [] (f 0)) by (rewrite map_length, seq_length; exact Hi').
    rewrite map_nth, seq_nth by exact Hi'. cbn. rewrite <- H by exact Hi'.
    rewrite <- (firstn_skipn n l) at 2. rewrite app_nth1; [reflexivity|rewrite firstn_length; lia].
Qed.
Lemma line_printed : forall bs l, Line_of bs l -> line_text l = printed bs.
Proof.
  intros bs l (L1 & L2 & L3 & L4 & L5 & L6 & L7). unfold line_text, printed. rewrite L1, L2, L4.
  rewrite (list_by_nth (l_tags l) (tag_rows bs) (fun i => row (tag i) bs)).
  - rewrite map_map. reflexivity.
  - lia.
  - intros i Hi. rewrite L7. destruct (Nat.ltb_spec i (tag_rows bs)); [reflexivity|lia].
Qed.

(* ---- breaking ---- *)
Lemma app_snoc_inv : forall A (l : list A) x p b q, l ++ [x] = p ++ b :: q ->
  (q = [] /\ p = l /\ b = x) \/ exists q', q = q' ++ [x] /\ l = p ++ b :: q'.
Proof.
  intros A l x p b q H. destruct q as [|z q] using rev_ind.
  - left. apply app_inj_tail in H. destruct H. auto.
  - right. exists q. rewrite app_comm_cons, app_assoc in H. apply app_inj_tail in H. destruct H as [-> ->]. auto.
Qed.
Lemma fits_one : forall W b, fits W [b].
Proof.
  intros W b. split; [discriminate|]. intros p x q E Hp. exfalso.
  destruct p as [|y p]; [tauto|]. injection E as _ E. destruct p; discriminate.
Qed.
Lemma fits_snoc : forall W l b, fits W l -> (Z.of_nat (width l + wide b) <= W)%Z -> fits W (l ++ [b]).
Proof.
  intros W l b [N F] Hb. split; [destruct l; discriminate|].
  intros p x q E Hp. apply app_snoc_inv in E. destruct E as [(-> & -> & ->)|(q' & -> & E)]; [exact Hb|].
  exact (F _ _ _ E Hp).
Qed.
Lemma broken_nil : forall W, broken W [] [].
Proof. intro W. split; [reflexivity|]. split; [constructor|]. intros pre l1 b r post E. destruct pre; discriminate. Qed.
Lemma broken_first : forall W b, broken W [b] [[b]].
Proof.
  intros W b. split; [reflexivity|]. split; [constructor; [apply fits_one|constructor]|].
  intros pre l1 c r post E. destruct pre as [|x [|y pre]]; discriminate.
Qed.
Lemma broken_new : forall W bs fl cur b, broken W bs (fl ++ [cur]) -> (Z.of_nat (width cur + wide b) > W)%Z ->
  broken W (bs ++ [b]) ((fl ++ [cur]) ++ [[b]]).
Proof.
  intros W bs fl cur b (C & F & U) Hw. split.
  { rewrite concat_app, C. reflexivity. }
  split. { apply Forall_app. split; [exact F|]. constructor; [apply fits_one|constructor]. }
  intros pre l1 c r post E.
  change (l1 :: (c :: r) :: post) with ([l1] ++ (c :: r) :: post) in E. rewrite app_assoc in E.
  apply app_snoc_inv in E. destruct E as [(-> & E & E2)|(q' & -> & E)].
  - injection E2 as -> ->. apply app_inj_tail in E. destruct E as [_ ->]. exact Hw.
  - rewrite <- app_assoc in E. exact (U _ _ _ _ _ E).
Qed.
Lemma broken_same : forall W bs fl cur b, cur <> [] -> broken W bs (fl ++ [cur]) -> (Z.of_nat (width cur + wide b) <= W)%Z ->
  broken W (bs ++ [b]) (fl ++ [cur ++ [b]]).
Proof.
  intros W bs fl cur b N (C & F & U) Hw. split.
  { rewrite <- C, !concat_app. cbn. rewrite !app_nil_r, app_assoc. reflexivity. }
  apply Forall_app in F. destruct F as [F1 F2]. inversion F2 as [|? ? F3 _]; subst.
  split. { apply Forall_app. split; [exact F1|]. constructor; [apply fits_snoc; assumption|constructor]. }
  intros pre l1 c r post E.
  change (l1 :: (c :: r) :: post) with ([l1] ++ (c :: r) :: post) in E. rewrite app_assoc in E.
  apply app_snoc_inv in E. destruct E as [(-> & E & E2)|(q' & -> & E)].
  - destruct cur as [|c' cur]; [tauto|]. injection E2 as -> E2. 
    apply (U pre l1 c' cur []). rewrite <- E, <- app_assoc. reflexivity.
  - apply (U pre l1 c r (q' ++ [cur])). rewrite E, <- !app_assoc. reflexivity.
Qed.
