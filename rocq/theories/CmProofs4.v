(* The word glosser: borrowings, and that any word is glossed. *)
From Coq Require Import String Ascii List NArith ZArith Bool Arith Lia.
From Verif Require Import Base LayoutModel LujvoSpec CmModel CmSpec CmProofs CmProofs2 CmProofs3.
Import ListNotations.
Open Scope list_scope.

Lemma cons_is c : cons c = true -> is_consonant c = true /\ (c <> "r"%char -> is_consonant_not_r c = true).
Proof. intro H. letters H; split; try reflexivity; intro; try reflexivity; congruence. Qed.
Lemma glue_hyphen a h c : glue a h c -> hyphen a h c = true.
Proof.
  intros [a' c' A C NA NC|a' c' A C O NA NC|a' c' O]; unfold hyphen.
  - destruct (cons_is _ A) as [_ A1]. destruct (cons_is _ C) as [_ C1]. rewrite A1, C1 by assumption. reflexivity.
  - destruct (cons_is _ A) as [A1 _]. destruct (cons_is _ C) as [C1 _]. rewrite A1, C1. rewrite !orb_true_r. reflexivity.
  - destruct O as [[-> ->]|[-> ->]]; reflexivity.
Qed.
Lemma fh_no i a b c d w : hyphen a b c = false -> find_hyphen i (a :: b :: c :: d :: w) = find_hyphen (S i) (b :: c :: d :: w).
Proof. intro H. cbn [find_hyphen]. rewrite H. reflexivity. Qed.
Lemma fh_yes i a b c d w : hyphen a b c = true -> find_hyphen i (a :: b :: c :: d :: w) = Some i.
Proof. intro H. cbn [find_hyphen]. rewrite H. reflexivity. Qed.
Lemma borrowing_hyphen p rest w : borrowing p rest w -> find_hyphen 1 w = Some (List.length p) /\ exists h, w = p ++ h :: rest.
Proof.
  intros [p' z h c d rest' CL G]. split; [| eauto]. apply glue_hyphen in G. destruct CL as [a v b F|a b v e F|a v b e F N]; inversion F; subst; cbn [app List.length].
  - rewrite fh_no by (apply mid; apply vow_rnl; assumption). rewrite fh_no by (apply left_; assumption). apply fh_yes. exact G.
  - rewrite fh_no by (apply right_; assumption). rewrite fh_no by (apply mid; apply vow_rnl; assumption). rewrite fh_no by (apply left_; assumption). apply fh_yes. exact G.
  - rewrite fh_no by (apply mid; apply vow_rnl; assumption). rewrite fh_no by (apply left_; assumption). rewrite fh_no; [apply fh_yes; exact G |].
    apply mid. unfold rnl. destruct (Ascii.eqb_spec e "r"), (Ascii.eqb_spec e "n"), (Ascii.eqb_spec e "l"); subst; try reflexivity; exfalso; apply N; cbn; auto.
Qed.
Lemma classifier_length p z : classifier p z -> List.length p <= 4.
Proof. intros []; cbn; lia. Qed.

Section DICT.
  Variable dict : txt -> option txt.
  Theorem borrowing_gloss p rest w : borrowing p rest w -> fits (or_unknown (dict ("%"%char :: p)) ++ text "-[" ++ rest ++ text "]") ->
    translate_unknown dict w = Ok (or_unknown (dict ("%"%char :: p)) ++ text "-[" ++ rest ++ text "]").
  Proof.
    intros B S. destruct (borrowing_hyphen _ _ _ B) as (FH & h & E). assert (L : List.length p <= 4) by (destruct B; eapply classifier_length; eassumption).
    unfold translate_unknown. rewrite FH, E. rewrite firstn_app, firstn_all, Nat.sub_diag. cbn [firstn]. rewrite app_nil_r.
    rewrite fit_ok by (unfold big; unfold txt in *; lia). cbn [obind]. destruct (fits_app _ _ S) as [S1 _].
    assert (T : translate_lujvo dict p = Ok (or_unknown (dict ("%"%char :: p)))).
    { unfold translate_lujvo. cbn [lujvo_loop]. destruct (Nat.eqb_spec (List.length p) 5) as [|_]; [unfold txt in *; lia |]. destruct (Nat.ltb_spec (List.length p) 5) as [_|]; [| unfold txt in *; lia].
      rewrite comp_plain; [| cbn [List.length]; unfold txt in *; lia | exact S1]. cbn [obind fst app]. rewrite fit_ok by exact S1. reflexivity. }
    rewrite T. cbn [obind]. replace (skipn (Datatypes.S (List.length p)) (p ++ h :: rest)) with rest.
    - rewrite fit_ok by exact S. reflexivity.
    - change (h :: rest) with ([h] ++ rest). rewrite app_assoc. replace (Datatypes.S (List.length p)) with (List.length (p ++ [h])) by (rewrite app_length; cbn; lia).
      rewrite skipn_app, skipn_all, Nat.sub_diag. reflexivity.
  Qed.

  (* ---- any word ---- *)
  Variable e : nat.
  Hypothesis SE : forall w t, dict w = Some t -> List.length t <= e.
  Definition room : nat := e + 12.
  Hypothesis RB : (N.of_nat room < big)%N.
  Lemma translate_any w : translate dict w = Ok (dict w).
  Proof. unfold translate. destruct (dict w) as [t|] eqn:E; [| reflexivity]. rewrite fit_ok; [reflexivity |]. apply SE in E. unfold room in RB. unfold txt in *. lia. Qed.
  Lemma comp_any w conv : List.length w <= 60 -> exists t c, translate_comp dict w conv = Ok (t, c) /\ List.length (or_ t "?") <= e + 11.
  Proof.
    intro L. unfold translate_comp. rewrite fit_ok by (unfold txt in *; lia). cbn [obind]. destruct (Nat.eqb conv 0).
    - rewrite translate_any. cbn [obind]. eexists _, _. split; [reflexivity |]. destruct (dict w) as [t|] eqn:E; cbn [or_ lit list_ascii_of_string List.length]; [apply SE in E; unfold txt in *; lia | lia].
    - rewrite fit_ok by (rewrite app_length; cbn [List.length]; unfold txt in *; lia). cbn [obind]. rewrite translate_any. cbn [obind].
      destruct (dict (w ++ _)) as [t|] eqn:E; [eexists _, _; split; [reflexivity |]; cbn [or_]; apply SE in E; unfold txt in *; lia |].
      rewrite translate_any. cbn [obind]. assert (LT : List.length (or_ (dict w) "??") <= e + 2).
      { destruct (dict w) as [t|] eqn:E2; cbn [or_ lit list_ascii_of_string List.length]; [apply SE in E2; unfold txt in *; lia | lia]. }
      assert (LR : forall s, List.length s <= 9 -> List.length (s ++ or_ (dict w) "??") <= e + 11) by (intros s LS; rewrite app_length; unfold txt in *; lia).
      match goal with |- context [fit big (?s ++ _)] => assert (LS : List.length s <= 9) by (destruct conv as [|[|[|[|[|[|conv]]]]]]; cbn; lia); specialize (LR s LS); clear LS end.
      rewrite fit_ok by (unfold room in RB; unfold txt in *; lia). cbn [obind]. eexists _, _. split; [reflexivity | exact LR].
  Qed.
  Lemma append_any t result initial n : List.length (or_ t "?") <= e + 11 -> List.length result + room <= n -> (N.of_nat n < big)%N ->
    exists r, append_trans t result initial = Ok r /\ List.length r <= List.length result + room.
  Proof.
    intros L R B. unfold append_trans. unfold room in *. destruct initial.
    - rewrite fit_ok by (unfold txt in *; lia). eexists; split; [reflexivity | unfold txt in *; lia].
    - rewrite fit_ok by (rewrite !app_length; cbn [lit list_ascii_of_string List.length]; unfold txt in *; lia). eexists; split; [reflexivity |]. rewrite !app_length. cbn [lit list_ascii_of_string List.length]. unfold txt in *. lia.
  Qed.
  Lemma at_any (w : txt) i : i <= List.length w -> exists c, at_ w i = Ok c.
  Proof.
    intro L. unfold at_. destruct (nth_error w i) as [c|] eqn:E; [eauto |]. apply nth_error_None in E. destruct (Nat.eqb_spec i (List.length w)); [eauto | lia].
  Qed.
  Lemma hyphened_any w k initial : k <= 4 -> 5 <= List.length w -> exists b, hyphened w k initial = Ok b.
  Proof.
    intros K L. unfold hyphened. destruct (at_any w 1) as (c1 & ->); [lia |]. cbn [obind]. destruct (at_any w (k - 1)) as (c2 & ->); [lia |]. cbn [obind].
    destruct (at_any w k) as (c3 & ->); [lia |]. cbn [obind]. destruct (at_any w (S k)) as (c4 & ->); [lia |]. cbn [obind]. eauto.
  Qed.
  Lemma loop_any : forall f w conv initial result n, List.length w < f -> List.length result + (List.length w + 1) * room <= n -> (N.of_nat n < big)%N ->
    exists t, lujvo_loop dict f w conv initial result = Ok t /\ List.length t <= n.
  Proof.
    induction f as [|f IH]; intros w conv initial result n F R B; [lia |]. cbn [lujvo_loop].
    assert (R1 : List.length result + room <= n) by nia.
    destruct (Nat.eqb_spec (List.length w) 5) as [E|E].
    { destruct (comp_any w conv) as (t & c & -> & LT); [lia |]. cbn [obind fst]. destruct (append_any t result initial n LT R1 B) as (r & -> & LR). exists r. split; [reflexivity | lia]. }
    destruct (Nat.ltb_spec (List.length w) 5) as [E5|E5].
    { destruct (comp_any ("%"%char :: w) conv) as (t & c & -> & LT); [cbn [List.length]; lia |]. cbn [obind fst]. unfold room in R1.
      rewrite fit_ok by (rewrite !app_length; destruct initial; cbn [lit list_ascii_of_string List.length]; unfold txt in *; lia).
      eexists. split; [reflexivity |]. rewrite !app_length. destruct initial; cbn [lit list_ascii_of_string List.length]; unfold txt in *; lia. }
    assert (PC : forall k, k <= 4 -> exists c r, (do x <- translate_comp dict ("%"%char :: firstn k w) conv; do r <- append_trans (fst x) result initial; Ok (snd x, r)) = Ok (c, r)
      /\ List.length r <= List.length result + room).
    { intros k K. destruct (comp_any ("%"%char :: firstn k w) conv) as (t & c & -> & LT); [cbn [List.length]; rewrite firstn_length; lia |]. cbn [obind fst snd].
      destruct (append_any t result initial n LT R1 B) as (r & -> & LR). cbn [obind]. eauto. }
    assert (TH : exists c r, match conv_of w with Some c => Ok (c, result) | None => (do x <- translate_comp dict ("%"%char :: firstn 3 w) conv; do r <- append_trans (fst x) result initial; Ok (snd x, r)) end = Ok (c, r)
      /\ List.length r <= List.length result + room).
    { destruct (conv_of w) as [c|]; [exists c, result; split; [reflexivity | lia] | apply PC; lia]. }
    assert (GO : forall c r m, 3 <= m <= 5 -> List.length r <= List.length result + room ->
      exists t, match skipn m w with [] => Ok r | w' => lujvo_loop dict f w' c false r end = Ok t /\ List.length t <= n).
    { intros c r m M LR. pose proof (skipn_length m w) as SL. destruct (skipn m w) as [|x w'] eqn:SK; [exists r; split; [reflexivity | lia] |].
      apply IH; [unfold txt in *; lia | | exact B]. unfold txt in *. rewrite SL. nia. }
    destruct TH as (c3 & r3 & T3 & L3). destruct (PC 4) as (c4 & r4 & T4 & L4); [lia |].
    assert (OTHER : exists t, (do x <- (do c2 <- at_ w 2;
        if Ascii.eqb c2 "'" then do x <- (do x <- translate_comp dict ("%"%char :: firstn 4 w) conv; do r <- append_trans (fst x) result initial; Ok (snd x, r)); do h <- hyphened w 4 initial; Ok (x, if h then 5 else 4)
        else do x <- match conv_of w with Some c => Ok (c, result) | None => (do x <- translate_comp dict ("%"%char :: firstn 3 w) conv; do r <- append_trans (fst x) result initial; Ok (snd x, r)) end; do h <- hyphened w 3 initial; Ok (x, if h then 4 else 3));
        let '(c, r, n) := x in match skipn n w with [] => Ok r | w' => lujvo_loop dict f w' c false r end) = Ok t /\ List.length t <= n).
    { destruct (at_any w 2) as (c2 & ->); [lia |]. cbn [obind]. destruct (Ascii.eqb c2 "'").
      - rewrite T4. cbn [obind]. destruct (hyphened_any w 4 initial) as (h & ->); [lia | lia |]. cbn [obind]. apply GO; [destruct h; lia | exact L4].
      - rewrite T3. cbn [obind]. destruct (hyphened_any w 3 initial) as (h & ->); [lia | lia |]. cbn [obind]. apply GO; [destruct h; lia | exact L3]. }
    assert (Y3 : exists t, (do x <- (do x <- match conv_of w with Some c => Ok (c, result) | None => (do x <- translate_comp dict ("%"%char :: firstn 3 w) conv; do r <- append_trans (fst x) result initial; Ok (snd x, r)) end; Ok (x, 4));
        let '(c, r, n) := x in match skipn n w with [] => Ok r | w' => lujvo_loop dict f w' c false r end) = Ok t /\ List.length t <= n).
    { rewrite T3. cbn [obind]. apply GO; [lia | exact L3]. }
    assert (Y4 : exists t, (do x <- (do x <- (do x <- translate_comp dict ("%"%char :: firstn 4 w) conv; do r <- append_trans (fst x) result initial; Ok (snd x, r)); Ok (x, 5));
        let '(c, r, n) := x in match skipn n w with [] => Ok r | w' => lujvo_loop dict f w' c false r end) = Ok t /\ List.length t <= n).
    { rewrite T4. cbn [obind]. apply GO; [lia | exact L4]. }
    destruct (find_y w) as [[|[|[|[|[|y]]]]]|]; try exact OTHER; [exact Y3 | exact Y4].
  Qed.
  Theorem unknown_any w : (N.of_nat ((List.length w + 2) * room) < big)%N -> exists t, translate_unknown dict w = Ok t.
  Proof.
    intro B. unfold translate_unknown.
    assert (LE : forall k, k <= List.length w + 1 -> (N.of_nat (k * room) < big)%N).
    { intros k K. assert (k * room <= (List.length w + 2) * room) by (apply Nat.mul_le_mono_r; lia). lia. }
    assert (R12 : 12 <= room) by (unfold room; lia).
    destruct (find_hyphen 1 w) as [i|].
    - assert (FS : List.length (firstn i w) + List.length (skipn (S i) w) <= List.length w) by (rewrite firstn_length, skipn_length; lia).
      set (m := List.length (firstn i w)) in *. set (j := List.length (skipn (S i) w)) in *.
      assert (MR : m <= (List.length w + 2) * room) by nia.
      assert (TR : (m + 1) * room + j + 3 <= (List.length w + 2) * room) by nia.
      rewrite fit_ok by (fold m; lia). cbn [obind]. unfold translate_lujvo.
      destruct (loop_any (S m) (firstn i w) 0 true [] ((m + 1) * room)) as (t & E & LT); [unfold m; apply Nat.lt_succ_diag_r | apply Nat.le_refl | apply LE; lia |].
      fold m. rewrite E. cbn [obind]. rewrite fit_ok; [eauto |]. rewrite !app_length. cbn [lit list_ascii_of_string List.length]. unfold txt in *. fold j. lia.
    - unfold translate_lujvo. destruct (loop_any (S (List.length w)) w 0 true [] ((List.length w + 1) * room)) as (t & E & _); [lia | cbn [List.length]; lia | apply LE; lia |]. eauto.
  Qed.
  Theorem brivla_any w : (N.of_nat ((List.length w + 2) * room) < big)%N -> exists t, trans_node dict (TT_BRIVLA, w) = Ok (lit "BRIVLA", t).
  Proof.
    intro B. unfold trans_node. cbn [fst snd]. rewrite translate_any. cbn [obind]. destruct (dict w); [eauto |]. destruct (unknown_any w B) as (t & ->). cbn [obind]. eauto.
  Qed.
End DICT.
