(* The walk of terms.c goes through: bridi. *)
From Coq Require Import String List NArith ZArith Bool Arith Lia.
From Verif Require Import Base TokData CmavoData TokModel StreamModel TreeModel TreeOutModel GrammarData GramModel GramSpec GramProofs PassProofs2
  ConvSpec ConvProofs2 ErasureProofs TermsModel TermsSpec WalkModel WalkSpec WalkProofs WalkProofs2 WalkProofs3 WalkProofs4 WalkProofs7 WalkTotal.
From Verif Require OutModel PassModel.
Import ListNotations.
Open Scope string_scope.
Open Scope list_scope.

Lemma small_le l : small l = true <-> List.length l <= 20.
Proof. unfold small. apply Nat.leb_le. Qed.

Section TOTAL.
  Variable T : tree.
  Hypothesis PT : parsed T.
  Hypothesis CT : is_nt "CHUNKS" T = true.
  Hypothesis LT : forall p c la, subtree T p = Some (NT "TANRU_UNIT_1" [c; la]) -> small (sorts (terms_in (p ++ [1]) la)) = true.
  (* the vectors of a bridi *)
  Hypothesis BT : forall p, List.length (before T p) <= 20.
  Hypothesis AT : forall p, List.length (after T p) <= 20.
  (* parts joined by gi'e ke have terms after them *)
  Hypothesis KT : forall p ch, subtree T p = Some (NT "BRIDI_TAIL" ch) -> Nat.eqb (List.length ch) 1 = false -> has_tail ch = true.
  Hypothesis AB : forall p ch, subtree T p = Some (NT "MAIN_SELBRI" ch) -> able T (p ++ [0]) (before T p, after T p, []).
  Notation node_parsed := (here_parsed T PT CT).
  Notation kid_sits := (child_sits T).
  Ltac of_count C := apply (counts_in _ _ C); cbn [In]; auto 10.
  Ltac use EE := match type of EE with _ = Ok ?es => match goal with |- exists _, obind ?X _ = _ => replace X with (Ok (A := list effect) es) by (symmetry; exact EE) end end; cbn [obind].

  Ltac room SM := match goal with |- context [if small ?s then _ else _] => replace (small s) with true by (symmetry; exact SM) end.

  Definition btotal (F : here -> list term -> list term -> outcome (list effect)) (K : string) (f : nat) : Prop :=
    forall (p : list nat) ch, sits T (p, NT K ch) -> height (NT K ch) < f -> exists es, F (p, NT K ch) (before T p) (after T p) = Ok es.
  Definition btotals (f : nat) : Prop :=
    btotal (subsentence f) "SUBSENTENCE" f /\ btotal (bridi_tail_3 f) "BRIDI_TAIL_3" f /\ btotal (gek_sentence f) "GEK_SENTENCE" f /\
    btotal (bridi_tail_2 f) "BRIDI_TAIL_2" f /\ btotal (bridi_tail_1 f) "BRIDI_TAIL_1" f /\ btotal (bridi_tail f) "BRIDI_TAIL" f.

  Lemma main_total (p : list nat) ch : sits T (p, NT "MAIN_SELBRI" ch) -> exists es, main_selbri (p, NT "MAIN_SELBRI" ch) (before T p) (after T p) = Ok es.
  Proof.
    intro SI. pose proof (AB p ch SI) as A. destruct (alt _ _ _ (node_parsed _ _ _ SI ltac:(naug)) ltac:(naug) ms_shape) as (ss & F & SH).
    destruct ss as [|[k|t|t] [|s' l]]; try discriminate SH. apply String.eqb_eq in SH. subst k. destruct (fits1 _ _ F) as (cc & ->).
    change (main_selbri (p, NT "MAIN_SELBRI" [NT "SELBRI" cc]) (before T p) (after T p)) with (selbri_args (depth (p ++ [0], NT "SELBRI" cc)) (p ++ [0], NT "SELBRI" cc) (before T p) (after T p) []).
    destruct (totals_ok T PT CT LT (depth (p ++ [0], NT "SELBRI" cc))) as (_ & _ & _ & _ & _ & _ & HS & _).
    apply HS; [eapply sits_child; [exact SI | reflexivity] | unfold depth; cbn [snd]; lia | exact A].
  Qed.

  Lemma tail_goes (p : list nat) k ch ss i : sits T (p, NT k ch) -> k <> "AUGMENTED" -> bridi_part k = true -> fitsx ss ch -> count "TERMS" ss = 0 -> count "TAIL_TERMS" ss <= 1 ->
    with_tail (p, NT k ch) (after T p) = Ok (after T (p ++ [i])).
  Proof.
    intros SI A B F C1 C2. destruct (with_tail_spec p k ch ss (after T p) (node_parsed _ _ _ SI A) A F C2) as (E & N & _). cbn zeta in E, N. rewrite E.
    pose proof (AT (p ++ [i])) as L. rewrite (after_kid T p _ _ _ SI B) in L |- *. destruct (has_tail ch); [| rewrite (N eq_refl); reflexivity].
    unfold joined. pose proof L as L'. rewrite app_length in L'. replace (small (sorts (kid_terms "TAIL_TERMS" p 0 ch))) with true by (symmetry; apply small_le; lia).
    replace (small (sorts (kid_terms "TAIL_TERMS" p 0 ch) ++ after T p)) with true by (symmetry; apply small_le; exact L). reflexivity.
  Qed.
  Lemma tail_before (p : list nat) k ch ss i : sits T (p, NT k ch) -> bridi_part k = true -> fitsx ss ch -> count "TERMS" ss = 0 -> before T (p ++ [i]) = before T p.
  Proof.
    intros SI B F C1. rewrite (before_kid T p _ _ _ SI B). destruct (find_no "TERMS" ss p k ch ltac:(naug) F C1) as (_ & NO).
    rewrite (kid_terms_none "TERMS" p ch) by (discriminate || assumption). cbn [sorts flat_map]. apply app_nil_r.
  Qed.
  Lemma single_kid (p : list nat) k K cc : sits T (p, NT k [NT K cc]) -> bridi_part k = true -> K <> "TERMS" -> K <> "TAIL_TERMS" ->
    before T (p ++ [0]) = before T p /\ after T (p ++ [0]) = after T p.
  Proof. intros SI B N1 N2. apply (plain_kid T p k [NT K cc] 0 SI B); apply single_none; congruence. Qed.
  Lemma nth_low k ch i K cc f : height (NT k ch) < S f -> nth_error ch i = Some (NT K cc) -> height (NT K cc) < f.
  Proof. intros H N. pose proof (height_nth k ch i _ N). lia. Qed.

  Lemma subsentence_total f : btotals f -> btotal (subsentence (S f)) "SUBSENTENCE" (S f).
  Proof.
    intros (H & _ & _ & _ & _ & HB) p ch SI HT. pose proof (node_parsed _ _ _ SI ltac:(naug)) as PC.
    destruct (alt _ _ _ PC ltac:(naug) subsentence_shape) as (ss & F & SH).
    change (subsentence (S f) (p, NT "SUBSENTENCE" ch) (before T p) (after T p)) with
      (if Nat.eqb (List.length ch) 2 then do c <- child_ref (p, NT "SUBSENTENCE" ch) 1; subsentence f c (before T p) (after T p)
       else
        do s <- child_ref (p, NT "SUBSENTENCE" ch) 0;
        do _ <- type_check s "SENTENCE";
        let b := sentence_body s in
        do terms <- find_child b 1 "TERMS";
        do bt <- find_child b 1 "BRIDI_TAIL"; do bt <- asserted bt;
        match terms with
        | Some t => do v <- tv_build t; do pre <- tv_catenate (before T p) v; bridi_tail f bt pre (after T p)
        | None => bridi_tail f bt (before T p) (after T p)
        end).
    destruct ss as [|[k|t|t] [|[k'|t'|t'] [|s' l]]]; try discriminate SH.
    - apply String.eqb_eq in SH. subst k. destruct (fits1 _ _ F) as (cc & ->). cbn [List.length Nat.eqb].
      change (child_ref (p, NT "SUBSENTENCE" [NT "SENTENCE" cc]) 0) with (Ok (A := here) (p ++ [0], NT "SENTENCE" cc)). cbn [obind].
      change (type_check (p ++ [0], NT "SENTENCE" cc) "SENTENCE") with (Ok tt). cbn [obind]. cbn zeta.
      destruct (single_kid p "SUBSENTENCE" "SENTENCE" cc SI eq_refl) as (BE & AE); [discriminate | discriminate |].
      destruct (sentence_spec T PT CT (p ++ [0]) cc (Done []) (sits_child _ _ _ _ 0 _ SI eq_refl)) as (q & dd & F1 & S1 & HD & _ & AQ & TB).
      pose proof (height_nth "SUBSENTENCE" [NT "SENTENCE" cc] 0 _ eq_refl) as HK. assert (LD : height (NT "BRIDI_TAIL" dd) < f) by lia.
      destruct (HB q dd S1 LD) as (es & EE). rewrite AE in AQ. rewrite BE in TB.
      destruct TB as [[FT EB]|(t & FT & NTT & PTT & EB)]; rewrite FT; cbn [obind]; rewrite F1; cbn [obind asserted].
      + rewrite <- EB, <- AQ. exists es. exact EE.
      + destruct (tv_build_spec t NTT PTT) as [TS _]. cbn zeta in TS. rewrite TS. pose proof (BT q) as L. rewrite EB, app_length in L.
        assert (SM : small (sorts (terms_in (fst t) (snd t))) = true) by (apply small_le; lia). room SM. cbn [obind]. rewrite catenate_joined.
        assert (SM2 : small (before T p ++ sorts (terms_in (fst t) (snd t))) = true) by (apply small_le; rewrite app_length; lia). room SM2. cbn [obind].
        exists es. rewrite EB, AQ in EE. exact EE.
    - apply andb_true_iff in SH. destruct SH as [S1 S2]. apply String.eqb_eq in S1, S2. subst k k'. destruct (fits2 _ _ _ F) as (cc & dd & ->). cbn [List.length Nat.eqb].
      change (child_ref (p, NT "SUBSENTENCE" [NT "PRENEX" cc; NT "SUBSENTENCE" dd]) 1) with (Ok (A := here) (p ++ [1], NT "SUBSENTENCE" dd)). cbn [obind].
      assert (NO : forall K, K <> "PRENEX" -> K <> "SUBSENTENCE" -> forall j c', nth_error [NT "PRENEX" cc; NT "SUBSENTENCE" dd] j <> Some (NT K c')).
      { intros K N1 N2 j c' N. destruct j as [|[|[|j]]]; cbn [nth_error] in N; try discriminate N; injection N as N _; congruence. }
      destruct (plain_kid T p "SUBSENTENCE" [NT "PRENEX" cc; NT "SUBSENTENCE" dd] 1 SI eq_refl) as [BE AE]; [apply NO; discriminate | apply NO; discriminate |].
      rewrite <- BE, <- AE. apply H; [exact (sits_child _ _ _ _ 1 _ SI eq_refl) |]. exact (nth_low _ _ 1 _ _ _ HT eq_refl).
  Qed.

  Lemma bt3_total f : btotals f -> btotal (bridi_tail_3 (S f)) "BRIDI_TAIL_3" (S f).
  Proof.
    intros (_ & _ & HG & _) p ch SI HT. pose proof (node_parsed _ _ _ SI ltac:(naug)) as PC.
    destruct (alt _ _ _ PC ltac:(naug) bt3_shape) as (ss & F & SH).
    change (bridi_tail_3 (S f) (p, NT "BRIDI_TAIL_3" ch) (before T p) (after T p)) with
      (do c1 <- child_ref (p, NT "BRIDI_TAIL_3" ch) 0;
       do ty <- type_of c1;
       if String.eqb ty "MAIN_SELBRI" then do post <- with_tail (p, NT "BRIDI_TAIL_3" ch) (after T p); main_selbri c1 (before T p) post
       else do _ <- type_check c1 "GEK_SENTENCE"; gek_sentence f c1 (before T p) (after T p)).
    assert (Q : ss = [SN "GEK_SENTENCE"] \/ exists l, ss = SN "MAIN_SELBRI" :: l /\ counts [("TERMS", 0); ("GEK_SENTENCE", 0); ("MAIN_SELBRI", 0)] l = true /\ count "TAIL_TERMS" l <= 1).
    { destruct ss as [|[k|t|t] l]; try discriminate SH. destruct l as [|s' l].
      - apply has_In in SH. destruct SH as [<-|[<-|[]]]; [left; reflexivity | right; exists []; auto].
      - right. destruct (String.eqb_spec k "MAIN_SELBRI") as [->|]; [| discriminate SH].
        exists (s' :: l). split; [reflexivity |]. destruct (counts _ _); [split; [reflexivity | apply Nat.leb_le; exact SH] | discriminate SH]. }
    destruct Q as [->|(l & -> & C & CTT)].
    - destruct (fits1 _ _ F) as (cc & ->).
      change (child_ref (p, NT "BRIDI_TAIL_3" [NT "GEK_SENTENCE" cc]) 0) with (Ok (A := here) (p ++ [0], NT "GEK_SENTENCE" cc)). cbn [obind type_of snd].
      cbn [String.eqb Ascii.eqb Bool.eqb]. change (type_check (p ++ [0], NT "GEK_SENTENCE" cc) "GEK_SENTENCE") with (Ok tt). cbn [obind].
      destruct (single_kid p "BRIDI_TAIL_3" "GEK_SENTENCE" cc SI eq_refl) as (BE & AE); [discriminate | discriminate |].
      rewrite <- BE, <- AE. apply HG; [exact (sits_child _ _ _ _ 0 _ SI eq_refl) |]. exact (nth_low _ _ 0 _ _ _ HT eq_refl).
    - assert (C0 : count "TERMS" (SN "MAIN_SELBRI" :: l) = 0) by (cbn [count is_SN]; rewrite (counts_in _ _ C "TERMS" 0) by (cbn [In]; auto); reflexivity).
      assert (CL : count "TAIL_TERMS" (SN "MAIN_SELBRI" :: l) <= 1) by (cbn [count is_SN]; exact CTT).
      pose proof (tail_before p _ _ _ 0 SI eq_refl F C0) as BE. pose proof (tail_goes p _ _ _ 0 SI ltac:(naug) eq_refl F C0 CL) as WT.
      inversion F as [|ty ss0 c0 cs F'| | |]; subst.
      change (child_ref (p, NT "BRIDI_TAIL_3" (NT "MAIN_SELBRI" c0 :: cs)) 0) with (Ok (A := here) (p ++ [0], NT "MAIN_SELBRI" c0)). cbn [obind type_of snd].
      rewrite String.eqb_refl. rewrite WT. cbn [obind]. rewrite <- BE. apply main_total. exact (sits_child _ _ _ _ 0 _ SI eq_refl).
  Qed.

  Lemma gek_total f : btotals f -> btotal (gek_sentence (S f)) "GEK_SENTENCE" (S f).
  Proof.
    intros (H & _ & HG & _) p ch SI HT. pose proof (node_parsed _ _ _ SI ltac:(naug)) as PC.
    destruct (alt _ _ _ PC ltac:(naug) gek_shape) as (ss & F & SH).
    change (gek_sentence (S f) (p, NT "GEK_SENTENCE" ch) (before T p) (after T p)) with
     (do c <- child_ref (p, NT "GEK_SENTENCE" ch) 0;
      if is_nt "GEK" (snd c) then
        do s1 <- find_child (p, NT "GEK_SENTENCE" ch) 1 "SUBSENTENCE"; do s2 <- find_child (p, NT "GEK_SENTENCE" ch) 2 "SUBSENTENCE";
        do s1 <- asserted s1; do s2 <- asserted s2;
        do post <- with_tail (p, NT "GEK_SENTENCE" ch) (after T p);
        do a <- subsentence f s1 (before T p) post; do b <- subsentence f s2 (before T p) post; Ok (a ++ b)
      else do c <- find_child (p, NT "GEK_SENTENCE" ch) 1 "GEK_SENTENCE"; do c <- deref c; gek_sentence f c (before T p) (after T p)).
    assert (Q : exists c rest, ch = c :: rest /\
      (is_nt "GEK" c = true /\ fine [("SUBSENTENCE", 2); ("GEK_SENTENCE", 0); ("TERMS", 0)] ss = true \/
       is_nt "GEK" c = false /\ counts [("SUBSENTENCE", 0); ("GEK_SENTENCE", 1); ("TERMS", 0); ("TAIL_TERMS", 0)] ss = true)).
    { destruct ss as [|[k|t|t] l]; try discriminate SH.
      - inversion F as [|ty ss0 c0 cs F'| | |]; subst. exists (NT k c0), cs. split; [reflexivity |]. cbn [is_nt]. destruct (String.eqb k "GEK"); auto.
      - destruct (fitsx_cons_word _ _ _ F) as (c & rest & -> & Wd & _). exists c, rest. split; [reflexivity |]. right. split; [| exact SH]. apply (wordlike_not t c "GEK" Wd). discriminate. }
    destruct Q as (c & rest & E & Q). change (child_ref (p, NT "GEK_SENTENCE" ch) 0) with (match nth_error ch 0 with Some c => Ok (A := here) (p ++ [0], c) | None => Abort end).
    assert (N0 : nth_error ch 0 = Some c) by (rewrite E; reflexivity). rewrite N0. cbn [obind snd]. clear E N0.
    destruct Q as [[G Q]|[G C]]; rewrite G.
    - apply fine_inv in Q. destruct Q as (_ & C & CTT).
      assert (C2 : count "SUBSENTENCE" ss = 2) by of_count C. assert (C0 : count "TERMS" ss = 0) by of_count C.
      destruct (find_two "SUBSENTENCE" ss p "GEK_SENTENCE" ch ltac:(naug) F C2) as (i & cc & j & dd & F1 & F2 & N1 & N2 & U).
      rewrite F1. cbn [obind]. rewrite F2. cbn [obind asserted].
      pose proof (tail_before p _ _ _ i SI eq_refl F C0) as BE. pose proof (tail_before p _ _ _ j SI eq_refl F C0) as BE'.
      pose proof (tail_goes p _ _ _ i SI ltac:(naug) eq_refl F C0 CTT) as WT. pose proof (tail_goes p _ _ _ j SI ltac:(naug) eq_refl F C0 CTT) as WT'.
      assert (EA : after T (p ++ [i]) = after T (p ++ [j])) by (rewrite WT in WT'; injection WT' as WT'; exact WT'). rewrite WT. cbn [obind].
      destruct (H _ _ (sits_child _ _ _ _ _ _ SI N1) (nth_low _ _ _ _ _ _ HT N1)) as (es & E1). rewrite BE in E1. use E1.
      destruct (H _ _ (sits_child _ _ _ _ _ _ SI N2) (nth_low _ _ _ _ _ _ HT N2)) as (es' & E2). rewrite BE', <- EA in E2. use E2. eauto.
    - assert (C1 : count "GEK_SENTENCE" ss = 1) by of_count C. assert (C0 : count "TERMS" ss = 0) by of_count C. assert (CTT : count "TAIL_TERMS" ss = 0) by of_count C.
      destruct (find_one "GEK_SENTENCE" ss p "GEK_SENTENCE" ch ltac:(naug) F C1) as (i & cc & F1 & O). rewrite F1. cbn [obind deref].
      destruct (plain_kid T p _ _ i SI eq_refl (no_sub p "" ch ss "TERMS" F ltac:(naug) C0) (no_sub p "" ch ss "TAIL_TERMS" F ltac:(naug) CTT)) as [BE AE]. rewrite <- BE, <- AE.
      apply HG; [eapply kid_sits; eassumption |]. exact (nth_low _ _ _ _ _ _ HT (only_at _ _ _ _ O)).
  Qed.

  Lemma bt2_total f : btotals f -> btotal (bridi_tail_2 (S f)) "BRIDI_TAIL_2" (S f).
  Proof.
    intros (_ & H3 & _ & H2 & _) p ch SI HT. pose proof (node_parsed _ _ _ SI ltac:(naug)) as PC.
    destruct (alt _ _ _ PC ltac:(naug) bt2_shape) as (ss & F & SH). apply (single_or "BRIDI_TAIL_3") in SH; [| exact true].
    change (bridi_tail_2 (S f) (p, NT "BRIDI_TAIL_2" ch) (before T p) (after T p)) with
      (if Nat.eqb (List.length ch) 1 then do c <- child_ref (p, NT "BRIDI_TAIL_2" ch) 0; bridi_tail_3 f c (before T p) (after T p)
       else
        do a <- find_child (p, NT "BRIDI_TAIL_2" ch) 1 "BRIDI_TAIL_2"; do a <- asserted a;
        do b <- find_child (p, NT "BRIDI_TAIL_2" ch) 2 "BRIDI_TAIL_2"; do b <- asserted b;
        do post <- with_tail (p, NT "BRIDI_TAIL_2" ch) (after T p);
        do x <- bridi_tail_2 f a (before T p) post; do y <- bridi_tail_2 f b (before T p) post; Ok (x ++ y)).
    destruct SH as [->|Q].
    - destruct (fits1 _ _ F) as (cc & ->). cbn [List.length Nat.eqb].
      change (child_ref (p, NT "BRIDI_TAIL_2" [NT "BRIDI_TAIL_3" cc]) 0) with (Ok (A := here) (p ++ [0], NT "BRIDI_TAIL_3" cc)). cbn [obind].
      destruct (single_kid p "BRIDI_TAIL_2" "BRIDI_TAIL_3" cc SI eq_refl) as (BE & AE); [discriminate | discriminate |].
      rewrite <- BE, <- AE. apply H3; [exact (sits_child _ _ _ _ 0 _ SI eq_refl) |]. exact (nth_low _ _ 0 _ _ _ HT eq_refl).
    - apply fine_inv in Q. destruct Q as (L & C & CTT). rewrite (more _ _ F L).
      assert (C2 : count "BRIDI_TAIL_2" ss = 2) by of_count C. assert (C0 : count "TERMS" ss = 0) by of_count C.
      destruct (find_two "BRIDI_TAIL_2" ss p "BRIDI_TAIL_2" ch ltac:(naug) F C2) as (i & cc & j & dd & F1 & F2 & N1 & N2 & U).
      rewrite F1. cbn [obind asserted]. rewrite F2. cbn [obind asserted].
      pose proof (tail_before p _ _ _ i SI eq_refl F C0) as BE. pose proof (tail_before p _ _ _ j SI eq_refl F C0) as BE'.
      pose proof (tail_goes p _ _ _ i SI ltac:(naug) eq_refl F C0 CTT) as WT. pose proof (tail_goes p _ _ _ j SI ltac:(naug) eq_refl F C0 CTT) as WT'.
      assert (EA : after T (p ++ [i]) = after T (p ++ [j])) by (rewrite WT in WT'; injection WT' as WT'; exact WT'). rewrite WT. cbn [obind].
      destruct (H2 _ _ (sits_child _ _ _ _ _ _ SI N1) (nth_low _ _ _ _ _ _ HT N1)) as (es & E1). rewrite BE in E1. use E1.
      destruct (H2 _ _ (sits_child _ _ _ _ _ _ SI N2) (nth_low _ _ _ _ _ _ HT N2)) as (es' & E2). rewrite BE', <- EA in E2. use E2. eauto.
  Qed.
  Lemma bt1_total f : btotals f -> btotal (bridi_tail_1 (S f)) "BRIDI_TAIL_1" (S f).
  Proof.
    intros (_ & _ & _ & H2 & H1 & _) p ch SI HT. pose proof (node_parsed _ _ _ SI ltac:(naug)) as PC.
    destruct (alt _ _ _ PC ltac:(naug) bt1_shape) as (ss & F & SH). apply (single_or "BRIDI_TAIL_2") in SH; [| exact true].
    change (bridi_tail_1 (S f) (p, NT "BRIDI_TAIL_1" ch) (before T p) (after T p)) with
      (if Nat.eqb (List.length ch) 1 then do c <- child_ref (p, NT "BRIDI_TAIL_1" ch) 0; bridi_tail_2 f c (before T p) (after T p)
       else
        do a <- find_child (p, NT "BRIDI_TAIL_1" ch) 1 "BRIDI_TAIL_1"; do a <- asserted a;
        do b <- find_child (p, NT "BRIDI_TAIL_1" ch) 1 "BRIDI_TAIL_2"; do b <- asserted b;
        do post <- with_tail (p, NT "BRIDI_TAIL_1" ch) (after T p);
        do x <- bridi_tail_1 f a (before T p) post; do y <- bridi_tail_2 f b (before T p) post; Ok (x ++ y)).
    destruct SH as [->|Q].
    - destruct (fits1 _ _ F) as (cc & ->). cbn [List.length Nat.eqb].
      change (child_ref (p, NT "BRIDI_TAIL_1" [NT "BRIDI_TAIL_2" cc]) 0) with (Ok (A := here) (p ++ [0], NT "BRIDI_TAIL_2" cc)). cbn [obind].
      destruct (single_kid p "BRIDI_TAIL_1" "BRIDI_TAIL_2" cc SI eq_refl) as (BE & AE); [discriminate | discriminate |].
      rewrite <- BE, <- AE. apply H2; [exact (sits_child _ _ _ _ 0 _ SI eq_refl) |]. exact (nth_low _ _ 0 _ _ _ HT eq_refl).
    - apply fine_inv in Q. destruct Q as (L & C & CTT). rewrite (more _ _ F L).
      assert (C1 : count "BRIDI_TAIL_1" ss = 1) by of_count C. assert (C0 : count "TERMS" ss = 0) by of_count C. assert (C2 : count "BRIDI_TAIL_2" ss = 1) by of_count C.
      destruct (find_one "BRIDI_TAIL_1" ss p "BRIDI_TAIL_1" ch ltac:(naug) F C1) as (i & cc & F1 & O1). apply only_at in O1.
      destruct (find_one "BRIDI_TAIL_2" ss p "BRIDI_TAIL_1" ch ltac:(naug) F C2) as (j & dd & F2 & O2). apply only_at in O2.
      rewrite F1. cbn [obind asserted]. rewrite F2. cbn [obind asserted].
      pose proof (tail_before p _ _ _ i SI eq_refl F C0) as BE. pose proof (tail_before p _ _ _ j SI eq_refl F C0) as BE'.
      pose proof (tail_goes p _ _ _ i SI ltac:(naug) eq_refl F C0 CTT) as WT. pose proof (tail_goes p _ _ _ j SI ltac:(naug) eq_refl F C0 CTT) as WT'.
      assert (EA : after T (p ++ [i]) = after T (p ++ [j])) by (rewrite WT in WT'; injection WT' as WT'; exact WT'). rewrite WT. cbn [obind].
      destruct (H1 _ _ (sits_child _ _ _ _ _ _ SI O1) (nth_low _ _ _ _ _ _ HT O1)) as (es & E1). rewrite BE in E1. use E1.
      destruct (H2 _ _ (sits_child _ _ _ _ _ _ SI O2) (nth_low _ _ _ _ _ _ HT O2)) as (es' & E2). rewrite BE', <- EA in E2. use E2. eauto.
  Qed.
  Lemma bt_total f : btotals f -> btotal (bridi_tail (S f)) "BRIDI_TAIL" (S f).
  Proof.
    intros (_ & _ & _ & _ & H1 & H0) p ch SI HT. pose proof (node_parsed _ _ _ SI ltac:(naug)) as PC.
    destruct (alt _ _ _ PC ltac:(naug) bt_shape) as (ss & F & SH). apply (single_or "BRIDI_TAIL_1") in SH; [| exact true].
    change (bridi_tail (S f) (p, NT "BRIDI_TAIL" ch) (before T p) (after T p)) with
      (if Nat.eqb (List.length ch) 1 then do c <- child_ref (p, NT "BRIDI_TAIL" ch) 0; bridi_tail_1 f c (before T p) (after T p)
       else
        do b <- find_child (p, NT "BRIDI_TAIL" ch) 1 "BRIDI_TAIL"; do b <- asserted b;
        do a <- find_child (p, NT "BRIDI_TAIL" ch) 1 "BRIDI_TAIL_1"; do a <- asserted a;
        do t <- tail_of (p, NT "BRIDI_TAIL" ch);
        match t with
        | None => UB UB_uninit
        | Some v =>
            do post <- tv_catenate v (after T p);
            do x <- bridi_tail_1 f a (before T p) post; do y <- bridi_tail f b (before T p) post; Ok (x ++ y)
        end).
    destruct SH as [->|Q].
    - destruct (fits1 _ _ F) as (cc & ->). cbn [List.length Nat.eqb].
      change (child_ref (p, NT "BRIDI_TAIL" [NT "BRIDI_TAIL_1" cc]) 0) with (Ok (A := here) (p ++ [0], NT "BRIDI_TAIL_1" cc)). cbn [obind].
      destruct (single_kid p "BRIDI_TAIL" "BRIDI_TAIL_1" cc SI eq_refl) as (BE & AE); [discriminate | discriminate |].
      rewrite <- BE, <- AE. apply H1; [exact (sits_child _ _ _ _ 0 _ SI eq_refl) |]. exact (nth_low _ _ 0 _ _ _ HT eq_refl).
    - apply fine_inv in Q. destruct Q as (L & C & CTT). pose proof (more _ _ F L) as M. rewrite M.
      assert (C1 : count "BRIDI_TAIL_1" ss = 1) by of_count C. assert (C0 : count "TERMS" ss = 0) by of_count C. assert (C2 : count "BRIDI_TAIL" ss = 1) by of_count C.
      destruct (find_one "BRIDI_TAIL_1" ss p "BRIDI_TAIL" ch ltac:(naug) F C1) as (i & cc & F1 & O1). apply only_at in O1.
      destruct (find_one "BRIDI_TAIL" ss p "BRIDI_TAIL" ch ltac:(naug) F C2) as (j & dd & F2 & O2). apply only_at in O2.
      rewrite F2. cbn [obind asserted]. rewrite F1. cbn [obind asserted].
      destruct (tail_of_spec p "BRIDI_TAIL" ch ss PC ltac:(naug) F CTT) as (TO & _ & _). cbn zeta in TO. rewrite (KT p ch SI M) in TO.
      pose proof (AT (p ++ [i])) as LA. rewrite (after_kid T p _ _ _ SI eq_refl), app_length in LA.
      replace (small (sorts (kid_terms "TAIL_TERMS" p 0 ch))) with true in TO by (symmetry; apply small_le; lia). rewrite TO. cbn [obind].
      rewrite catenate_joined. replace (small (sorts (kid_terms "TAIL_TERMS" p 0 ch) ++ after T p)) with true by (symmetry; apply small_le; rewrite app_length; lia). cbn [obind].
      pose proof (tail_before p _ _ _ i SI eq_refl F C0) as BE. pose proof (tail_before p _ _ _ j SI eq_refl F C0) as BE'.
      destruct (H1 _ _ (sits_child _ _ _ _ _ _ SI O1) (nth_low _ _ _ _ _ _ HT O1)) as (es & E1). rewrite BE, (after_kid T p _ _ _ SI eq_refl) in E1. use E1.
      destruct (H0 _ _ (sits_child _ _ _ _ _ _ SI O2) (nth_low _ _ _ _ _ _ HT O2)) as (es' & E2). rewrite BE', (after_kid T p _ _ _ SI eq_refl) in E2. use E2. eauto.
  Qed.
  Theorem btotals_ok f : btotals f.
  Proof.
    induction f as [|f IH].
    - unfold btotals, btotal. repeat split; intros; match goal with H : _ < 0 |- _ => destruct (Nat.nlt_0_r _ H) end.
    - split; [apply subsentence_total; exact IH |]. split; [apply bt3_total; exact IH |]. split; [apply gek_total; exact IH |]. split; [apply bt2_total; exact IH |].
      split; [apply bt1_total; exact IH | apply bt_total; exact IH].
  Qed.
End TOTAL.
