(* The walk of terms.c goes through: the whole of it. *)
From Coq Require Import String List NArith ZArith Bool Arith Lia Sorted.
From Verif Require Import Base TokData CmavoData TokModel StreamModel TreeModel TreeOutModel GrammarData GramModel GramSpec GramProofs PassProofs2
  ConvSpec ConvProofs2 ErasureProofs TermsModel TermsSpec TermsProofs TermsProofs2 WalkModel WalkSpec WalkProofs WalkProofs2 WalkProofs3 WalkProofs4 WalkProofs5 WalkProofs6
  WalkProofs7 WalkTotal WalkTotal2 RoomSpec.
From Verif Require OutModel PassModel.
Import ListNotations.
Open Scope string_scope.
Open Scope list_scope.

Lemma scan_total f x : forall (p : list nat), (forall (r : list nat) k ch, subtree x r = Some (NT k ch) -> exists es, f (p ++ r, NT k ch) = Ok es) -> exists es, scan f p x = Ok es.
Proof.
  induction x as [n|k ch IH] using tree_ind2; intros p H; [cbn [scan]; eauto |].
  change (scan f p (NT k ch)) with (do a <- f (p, NT k ch); do b <- go_scan f p 0 ch; Ok (a ++ b)).
  destruct (H [] k ch eq_refl) as (es & E). rewrite app_nil_r in E. rewrite E. cbn [obind].
  assert (G : forall l i, (forall j c, nth_error l j = Some c -> nth_error ch (i + j) = Some c) -> exists b, go_scan f p i l = Ok b).
  { induction l as [|c l IHl]; intros i N; [exists []; reflexivity |].
    change (go_scan f p i (c :: l)) with (do a <- scan f (p ++ [i]) c; do b <- go_scan f p (S i) l; Ok (a ++ b)).
    pose proof (N 0 c eq_refl) as N0. rewrite Nat.add_0_r in N0. rewrite Forall_forall in IH.
    destruct (IH c (nth_error_In _ _ N0) (p ++ [i])) as (a & ->).
    { intros r k' ch' E'. rewrite <- app_assoc. apply (H (i :: r) k' ch'). cbn [subtree]. rewrite N0. exact E'. }
    cbn [obind]. destruct (IHl (S i)) as (b & ->); [| cbn [obind]; eauto].
    intros j c' Nj. replace (S i + j) with (i + S j) by lia. apply N. exact Nj. }
  destruct (G ch 0 (fun j c N => N)) as (b & ->). cbn [obind]. eauto.
Qed.

Lemma tailed_has ch : tailed ch -> has_tail ch = true.
Proof.
  intros (i & j & dd & ee & N1 & N2). unfold has_tail. apply existsb_exists. exists (NT "TAIL_TERMS" dd). split; [eapply nth_error_In; exact N1 |].
  rewrite String.eqb_refl. apply existsb_exists. exists (NT "TERMS" ee). split; [eapply nth_error_In; exact N2 | apply String.eqb_refl].
Qed.

Section TOTAL.
  Variable T : tree.
  Hypothesis PT : parsed T.
  Hypothesis CT : is_nt "CHUNKS" T = true.
  Hypothesis RT : roomy T.
  Notation node_parsed := (here_parsed T PT CT).

  Lemma LT p c la : subtree T p = Some (NT "TANRU_UNIT_1" [c; la]) -> small (sorts (terms_in (p ++ [1]) la)) = true.
  Proof. intro E. destruct RT as (_ & L & _). apply small_le. exact (L _ _ _ E). Qed.
  Lemma BT p : List.length (before T p) <= 20.
  Proof. destruct RT as (B & _). apply B. Qed.
  Lemma AT p : List.length (after T p) <= 20.
  Proof. destruct RT as (B & _). apply B. Qed.
  Lemma KT p ch : subtree T p = Some (NT "BRIDI_TAIL" ch) -> Nat.eqb (List.length ch) 1 = false -> has_tail ch = true.
  Proof. intros E N. destruct RT as (_ & _ & _ & K). apply tailed_has. apply (K _ _ E). apply Nat.eqb_neq. exact N. Qed.
  Lemma source_able s a : source T s a -> able T s a.
  Proof.
    intros SO q [[pre post] lc] D. pose proof (down_ok _ _ _ _ _ D (source_ok _ _ _ SO)) as AO. destruct RT as (_ & _ & F & _). destruct (F _ _ _ _ _ _ SO D) as [L O].
    split; [exact AO |]. split; [exact L |]. intros mk c N. pose proof AO as (T1 & T2 & K).
    destruct (bridi_total _ jai_shown true (fun p => (PT_ORD, p)) pre post (map fst lc) T1 T2 K) as (out & OB). destruct (O _ _ _ N OB) as [FI JA].
    destruct (assign_places_ok _ _ _ _ T1 T2 K OB) as [(_ & _ & xs & E & _)|([NF|NJ] & _)]; [eauto | contradiction | lia].
  Qed.
  Lemma AB p ch : subtree T p = Some (NT "MAIN_SELBRI" ch) -> able T (p ++ [0]) (before T p, after T p, []).
  Proof. intro E. apply source_able. left. eapply b_bridi; [exact E | reflexivity]. Qed.

  Lemma sub_total (q : list nat) k ch i cc : sits T (q, NT k ch) -> bridi_part k = false -> nth_error ch i = Some (NT "SUBSENTENCE" cc) ->
    exists es, subsentence (depth (q ++ [i], NT "SUBSENTENCE" cc)) (q ++ [i], NT "SUBSENTENCE" cc) [] [] = Ok es.
  Proof.
    intros SI B N. destruct (before_top T q k ch i SI B) as [EB EA]. pose proof (sits_child _ _ _ _ i _ SI N) as SC.
    destruct (btotals_ok T PT CT LT BT AT KT AB (depth (q ++ [i], NT "SUBSENTENCE" cc))) as (HB & _).
    destruct (HB _ _ SC) as (es & E); [unfold depth; cbn [snd]; lia |]. rewrite EB, EA in E. eauto.
  Qed.
  Lemma statement_total (p : list nat) ch : sits T (p, NT "STATEMENT_3" ch) -> exists es, statement_3 (p, NT "STATEMENT_3" ch) = Ok es.
  Proof.
    intro SI. pose proof (node_parsed _ _ _ SI ltac:(naug)) as PC. destruct (alt _ _ _ PC ltac:(naug) st3_shape) as (ss & F & SH).
    assert (Q : ss = [SN "SENTENCE"] \/ count "SENTENCE" ss = 0 /\ 2 <= musts ss).
    { destruct ss as [|[k|t|t] [|s' l]]; try (right; match type of SH with (if Nat.eqb ?a 0 then _ else _) = true => destruct (Nat.eqb_spec a 0) end; [split; [assumption | apply Nat.leb_le; exact SH] | discriminate SH]).
      cbn beta iota in SH. left. apply String.eqb_eq in SH. subst k. reflexivity. }
    destruct Q as [->|[C0 L]].
    - destruct (fits1 _ _ F) as (cc & ->).
      change (statement_3 (p, NT "STATEMENT_3" [NT "SENTENCE" cc])) with
       (let b := sentence_body (p ++ [0], NT "SENTENCE" cc) in
        do terms <- find_child b 1 "TERMS";
        do bt <- find_child b 1 "BRIDI_TAIL"; do bt <- asserted bt;
        do pre <- match terms with Some t => tv_build t | None => Ok [] end;
        bridi_tail (depth bt) bt pre []). cbn zeta.
      pose proof (sits_child _ _ _ _ 0 _ SI eq_refl) as SC.
      destruct (before_top T p "STATEMENT_3" _ 0 SI eq_refl) as [BE AE].
      destruct (sentence_spec T PT CT (p ++ [0]) cc (Done []) SC) as (q & dd & F1 & S1 & _ & _ & AQ & TB). rewrite AE in AQ. rewrite BE in TB.
      destruct (btotals_ok T PT CT LT BT AT KT AB (depth (q, NT "BRIDI_TAIL" dd))) as (_ & _ & _ & _ & _ & HB).
      destruct (HB _ _ S1) as (es & E); [unfold depth; cbn [snd]; lia |].
      destruct TB as [[FT EB]|(t & FT & NTT & PTT & EB)]; rewrite FT; cbn [obind]; rewrite F1; cbn [obind asserted].
      + rewrite EB, AQ in E. eauto.
      + destruct (tv_build_spec t NTT PTT) as [TS _]. cbn zeta in TS. rewrite TS. cbn [app] in EB. pose proof (BT q) as L. rewrite EB in L.
        match goal with |- context [if small ?s then _ else _] => replace (small s) with true by (symmetry; apply small_le; exact L) end. cbn [obind].
        rewrite EB, AQ in E. exists es. exact E.
    - unfold statement_3, nch. cbn [snd obind]. destruct (Nat.eqb_spec (List.length ch) 1) as [L1|]; [| eauto]. pose proof (musts_length _ _ F). lia.
  Qed.
  Lemma abstraction_total (p : list nat) ch : sits T (p, NT "ABSTRACTION" ch) -> exists es, abstraction (p, NT "ABSTRACTION" ch) = Ok es.
  Proof.
    intro SI. pose proof (node_parsed _ _ _ SI ltac:(naug)) as PC. destruct (alt _ _ _ PC ltac:(naug) abs_shape) as (ss & F & SH).
    destruct ss as [|[k|t|t] [|[k'|t'|t'] l]]; try discriminate SH. destruct (String.eqb_spec k' "SUBSENTENCE") as [->|]; [| discriminate SH].
    inversion F as [|ty ss0 c0 cs F'| | |]; subst. inversion F' as [|ty ss0 c1 cs' F''| | |]; subst.
    change (abstraction (p, NT "ABSTRACTION" (NT k c0 :: NT "SUBSENTENCE" c1 :: cs'))) with
      (subsentence (depth (p ++ [1], NT "SUBSENTENCE" c1)) (p ++ [1], NT "SUBSENTENCE" c1) [] []).
    exact (sub_total p "ABSTRACTION" _ 1 c1 SI eq_refl eq_refl).
  Qed.
  Lemma clause_total (p : list nat) ch : sits T (p, NT "RELATIVE_CLAUSE" ch) -> exists es, relative_clause (p, NT "RELATIVE_CLAUSE" ch) = Ok es.
  Proof.
    intro SI. pose proof (node_parsed _ _ _ SI ltac:(naug)) as PC. destruct (alt _ _ _ PC ltac:(naug) clause_shape) as (ss & F & SH).
    destruct ss as [|[k|t|t] [|s' l]]; try discriminate SH. destruct (fits1 _ _ F) as (cc & ->). pose proof (sits_child _ _ _ _ 0 _ SI eq_refl) as SC.
    apply has_In in SH. destruct SH as [<-|[<-|[]]].
    - change (relative_clause (p, NT "RELATIVE_CLAUSE" [NT "FULL_RELATIVE_CLAUSE" cc])) with
        (do ss <- find_child (p ++ [0], NT "FULL_RELATIVE_CLAUSE" cc) 1 "SUBSENTENCE"; match ss with Some ss => subsentence (depth ss) ss [] [] | None => Ok [] end).
      destruct (alt _ _ _ (node_parsed _ _ _ SC ltac:(naug)) ltac:(naug) full_shape) as (ss & F' & C). apply Nat.eqb_eq in C.
      destruct (find_one "SUBSENTENCE" ss (p ++ [0]) "FULL_RELATIVE_CLAUSE" cc ltac:(naug) F' C) as (i & dd & FO & O). rewrite FO. cbn [obind].
      exact (sub_total (p ++ [0]) "FULL_RELATIVE_CLAUSE" cc i dd SC eq_refl (only_at _ _ _ _ O)).
    - exists []. reflexivity.
  Qed.
  Lemma meta_total (p : list nat) ch : sits T (p, NT "METALINGUISTIC" ch) -> exists es, metalinguistic (p, NT "METALINGUISTIC" ch) = Ok es.
  Proof.
    intro SI. pose proof (node_parsed _ _ _ SI ltac:(naug)) as PC. destruct (alt _ _ _ PC ltac:(naug) meta_shape) as (ss & F & SH).
    destruct (Nat.eqb_spec (count "METALINGUISTIC_MAIN_SELBRI" ss) 1) as [C1|]; [| discriminate SH]. destruct (Nat.leb_spec (count "TERMS" ss) 1) as [C2|]; [| discriminate SH].
    apply Nat.eqb_eq in SH.
    destruct (find_one "METALINGUISTIC_MAIN_SELBRI" ss p "METALINGUISTIC" ch ltac:(naug) F C1) as (i & cc & FO & O).
    destruct (find_no "TAIL_TERMS" ss p "METALINGUISTIC" ch ltac:(naug) F SH) as (_ & NT0).
    pose proof (sits_child _ _ _ _ i _ SI (only_at _ _ _ _ O)) as SM.
    assert (SB : able T ((p ++ [i]) ++ [0]) (before T (p ++ [i]), after T (p ++ [i]), [])) by (apply source_able; left; eapply b_bridi; [exact SM | reflexivity]).
    destruct (alt _ _ _ (node_parsed _ _ _ SM ltac:(naug)) ltac:(naug) mm_shape) as (ss' & F' & SH').
    destruct ss' as [|[k|t|t] [|s' l]]; try discriminate SH'. apply String.eqb_eq in SH'. subst k. destruct (fits1 _ _ F') as (dd & ->).
    pose proof (sits_child _ _ _ _ 0 _ SM eq_refl) as SS.
    assert (TOP : before T p = [] /\ after T p = []).
    { destruct p as [|j p'] using rev_ind; [split; reflexivity |]. clear IHp'. unfold sits in SI. cbn [fst snd] in SI.
      destruct (parent_of T p' j "METALINGUISTIC" ch PT CT SI ltac:(naug)) as (ty & pch & E1 & _ & _ & _ & K).
      assert (TY : In ty ["FREE"]) by (revert K; apply kids_parents; vm_compute; reflexivity). destruct TY as [<-|[]]. exact (before_top T p' "FREE" pch j E1 eq_refl). }
    destruct TOP as [TB TA].
    pose proof (before_kid T p "METALINGUISTIC" ch i SI eq_refl) as BK. pose proof (after_kid T p "METALINGUISTIC" ch i SI eq_refl) as AK.
    rewrite TB in BK. rewrite TA in AK. rewrite (kid_terms_none "TAIL_TERMS" p ch) in AK by (discriminate || assumption). cbn [sorts flat_map app] in AK, BK.
    destruct (totals_ok T PT CT LT (depth ((p ++ [i]) ++ [0], NT "SELBRI" dd))) as (_ & _ & _ & _ & _ & _ & HS & _).
    destruct (HS _ _ (before T (p ++ [i])) (after T (p ++ [i])) [] SS) as (es & E); [unfold depth; cbn [snd]; lia | exact SB |].
    exists es. unfold metalinguistic. rewrite FO. cbn [obind asserted].
    change (child_ref (p ++ [i], NT "METALINGUISTIC_MAIN_SELBRI" [NT "SELBRI" dd]) 0) with (Ok (A := here) ((p ++ [i]) ++ [0], NT "SELBRI" dd)). cbn [obind].
    unfold selbri_terms. rewrite AK in E.
    destruct (count "TERMS" ss) as [|[|n]] eqn:CE; [| | lia].
    - destruct (find_no "TERMS" ss p "METALINGUISTIC" ch ltac:(naug) F CE) as (FT & N). rewrite FT. cbn [obind].
      rewrite BK, (kid_terms_none "TERMS" p ch) in E by (discriminate || assumption). exact E.
    - destruct (find_one "TERMS" ss p "METALINGUISTIC" ch ltac:(naug) F CE) as (j & tt & FT & OT). rewrite FT. cbn [obind].
      assert (P1 : parsed (NT "TERMS" tt)) by (eapply parsed_children; [exact PC | naug | eapply nth_error_In; apply only_at; exact OT]).
      destruct (tv_build_spec (p ++ [j], NT "TERMS" tt) eq_refl P1) as [TS _]. cbn [fst snd] in TS. cbn zeta in TS. rewrite TS.
      pose proof (BT (p ++ [i])) as L. rewrite BK, (kid_terms_at "TERMS" p ch ltac:(discriminate) j tt 0 OT) in L, E. cbn [Nat.add] in L, E.
      match goal with |- context [if small ?s then _ else _] => replace (small s) with true by (symmetry; apply small_le; exact L) end. cbn [obind]. exact E.
  Qed.
  Lemma parent_total (p : list nat) k ch : subtree T p = Some (NT k ch) -> exists es, sentence_parent (p, NT k ch) = Ok es.
  Proof.
    intro E. unfold sentence_parent. cbn [snd is_nt]. destruct (String.eqb_spec k "STATEMENT_3") as [->|]; [apply statement_total; exact E |].
    destruct (String.eqb_spec k "ABSTRACTION") as [->|]; [apply abstraction_total; exact E |]. destruct (String.eqb_spec k "RELATIVE_CLAUSE") as [->|]; [apply clause_total; exact E |].
    destruct (String.eqb_spec k "METALINGUISTIC") as [->|]; [apply meta_total; exact E | eauto].
  Qed.
  Lemma sumti_total (p : list nat) k ch : subtree T p = Some (NT k ch) -> exists es, selbri_in_sumti (p, NT k ch) = Ok es.
  Proof.
    intro E. unfold selbri_in_sumti. cbn [snd is_nt].
    destruct (String.eqb k "SUMTI_5B" || String.eqb k "SUMTI_TAIL_1A") eqn:KK; [| eauto].
    assert (NA : k <> "AUGMENTED") by (intros ->; discriminate KK).
    assert (AM : among k ["SUMTI_5B"; "SUMTI_TAIL_1A"] = true).
    { unfold among. cbn [existsb]. rewrite orb_false_r. exact KK || (rewrite (String.eqb_sym "SUMTI_5B" k), (String.eqb_sym "SUMTI_TAIL_1A" k); exact KK). }
    apply orb_true_iff in KK. rewrite !String.eqb_eq in KK. pose proof (node_parsed p k ch E NA) as PC.
    assert (SS : exists ss, fitsx ss ch /\ count "SELBRI" ss = 1).
    { destruct KK as [->| ->]; [destruct (alt _ _ _ PC NA s5b_shape) as (ss & F & C) | destruct (alt _ _ _ PC NA st1a_shape) as (ss & F & C)]; apply Nat.eqb_eq in C; eauto. }
    destruct SS as (ss & F & C). destruct (find_one "SELBRI" ss p k ch ltac:(naug) F C) as (i & cc & FO & O). rewrite FO. cbn [obind asserted]. unfold selbri_terms.
    destruct (totals_ok T PT CT LT (depth (p ++ [i], NT "SELBRI" cc))) as (_ & _ & _ & _ & _ & _ & HS & _).
    apply HS; [exact (sits_child _ _ _ _ i _ E (only_at _ _ _ _ O)) | unfold depth; cbn [snd]; lia |].
    apply source_able. left. eapply b_sumti; [exists ch, cc; split; [exact E | apply only_at; exact O] | exact AM].
  Qed.
  Lemma links_total (p : list nat) k ch : subtree T p = Some (NT k ch) -> exists es, tu1_links (p, NT k ch) = Ok es.
  Proof.
    intro E. unfold tu1_links. cbn [snd is_nt]. destruct (String.eqb_spec k "TANRU_UNIT_1") as [->|]; [| eauto].
    pose proof (node_parsed p _ ch E ltac:(naug)) as PC. destruct (tu1_inv _ PC) as (cc & [->|(dd & ->)]).
    - change (links_of (p, NT "TANRU_UNIT_1" [NT "TANRU_UNIT_2" cc])) with (Ok (A := option (list term)) None). cbn [obind]. eauto.
    - destruct (links_of_spec p cc dd PC) as [LS _]. cbn zeta in LS. rewrite LS. pose proof (LT p _ _ E) as L. rewrite L. cbn [obind]. eauto.
  Qed.
  Section PHASE.
    Variable es0 : list effect.
    Hypothesis B0 : forall e, In e es0 <-> begun T e.
    Lemma leftover_total l1 (p : list nat) k ch l2 c1 : listed T (l1 ++ (p, NT k ch) :: l2) -> subtree T p = Some (NT k ch) -> known T es0 l1 c1 ->
      exists a, leftover (es0 ++ c1) (p, NT k ch) = Ok a.
    Proof.
      intros LS0 E KN. destruct (run_loose T es0 B0 _ _ _ _ _ LS0 KN) as [_ ISL]. unfold leftover. cbn [fst snd is_nt].
      destruct (String.eqb_spec k "TANRU_UNIT_1") as [->|]; [| eauto]. pose proof (node_parsed p _ ch E ltac:(naug)) as PC. destruct (tu1_inv _ PC) as (cc & [->|(dd & ->)]).
      - change (links_of (p, NT "TANRU_UNIT_1" [NT "TANRU_UNIT_2" cc])) with (Ok (A := option (list term)) None). cbn [obind]. eauto.
      - destruct (links_of_spec p cc dd PC) as [LS _]. cbn zeta in LS. rewrite LS. pose proof (LT p _ _ E) as L. rewrite L. cbn [obind].
        destruct (is_done (es0 ++ c1) p) eqn:D; [eauto |].
        assert (LO : loose T p) by (apply ISL; [eexists _, _; exact E |]; rewrite <- is_done_in; congruence).
        assert (AN : able T p nothing) by (apply source_able; right; auto).
        change (child_ref (p, NT "TANRU_UNIT_1" [NT "TANRU_UNIT_2" cc; NT "LINKARGS" dd]) 0) with (Ok (A := here) (p ++ [0], NT "TANRU_UNIT_2" cc)). cbn [obind].
        destruct (totals_ok T PT CT LT (depth (p ++ [0], NT "TANRU_UNIT_2" cc))) as (HT & _).
        destruct (HT (p ++ [0]) cc [] [] [(LC_LINKS (sorts (terms_in (p ++ [1]) (NT "LINKARGS" dd))), [])]) as (es & EE);
          [exact (sits_child _ _ _ _ 0 _ E eq_refl) | unfold depth; cbn [snd]; lia | eapply able_step; [exact AN |]; exact (s_links T p _ _ [] [] [] E) |].
        match goal with |- exists _, obind ?X _ = _ => replace X with (Ok (A := list effect) es) by (symmetry; exact EE) end. cbn [obind]. eauto.
    Qed.
    Lemma run_total l2 : forall l1 c1, listed T (l1 ++ l2) -> known T es0 l1 c1 -> exists c2, run (es0 ++ c1) l2 = Ok c2.
    Proof.
      induction l2 as [|n l2 IH]; intros l1 c1 LS0 KN; [exists []; reflexivity |]. cbn [run].
      assert (ANn : at_node T n) by (destruct LS0 as (_ & AN & _); rewrite Forall_forall in AN; apply AN; apply in_or_app; right; left; reflexivity).
      destruct n as [p x]. destruct ANn as (k & ch & EX & EP). cbn [fst snd] in EX, EP. subst x.
      destruct (leftover_total _ _ _ _ _ _ LS0 EP KN) as (a & E). rewrite E. cbn [obind].
      pose proof (run_step T PT CT es0 B0 _ _ _ _ _ _ _ LS0 EP KN E) as KN2.
      assert (LL : (l1 : list here) ++ @cons here (p, NT k ch) l2 = (l1 ++ @cons here (p, NT k ch) []) ++ l2) by (rewrite <- app_assoc; reflexivity).
      change (l1 ++ (p, NT k ch) :: l2) with ((l1 : list here) ++ @cons here (p, NT k ch) l2) in *. rewrite LL in LS0.
      destruct (IH _ _ LS0 KN2) as (b & EB). rewrite <- app_assoc, EB. cbn [obind]. eauto.
    Qed.
  End PHASE.

  Theorem walk_total : exists es, terms_processing T = Ok es.
  Proof.
    unfold terms_processing. destruct (scan_total tu1_links T []) as (x & ->); [intros r k ch E; apply links_total; exact E |]. cbn [obind].
    destruct (scan_total sentence_parent T []) as (a & EA); [intros r k ch E; apply parent_total; exact E |]. rewrite EA. cbn [obind].
    destruct (scan_total selbri_in_sumti T []) as (b & EB); [intros r k ch E; apply sumti_total; exact E |]. rewrite EB. cbn [obind].
    assert (B0 : forall e, In e (a ++ b) <-> begun T e) by (intro e; rewrite in_app_iff, (scan1 T PT CT _ EA), (scan2 T PT CT _ EB), begun_iff; reflexivity).
    destruct (run_total (a ++ b) B0 (nodes [] T) [] [] (all_listed T) (none_known T (a ++ b))) as (c & EC).
    rewrite phase2_run. rewrite app_nil_r in EC. rewrite EC. cbn [obind]. eauto.
  Qed.
End TOTAL.

Lemma unmarked_le ts : unmarked_count ts <= List.length ts.
Proof. unfold unmarked_count. induction ts as [|t ts IH]; cbn [filter List.length]; [lia |]. destruct t; cbn [List.length]; lia. Qed.
Lemma links_le es : total_links es <= list_sum (map linked_terms es).
Proof.
  induction es as [|e es IH]; [cbv; lia |]. change (total_links (e :: es)) with (link_count e + total_links es).
  change (list_sum (map linked_terms (e :: es))) with (linked_terms e + list_sum (map linked_terms es)).
  assert (link_count e <= linked_terms e) by (destruct e; cbn [link_count linked_terms]; try lia; apply unmarked_le). lia.
Qed.
Lemma jai_le es : List.length (filter is_jai es) <= List.length es.
Proof. induction es as [|e es IH]; cbn [filter List.length]; [lia |]. destruct (is_jai e); cbn [List.length]; lia. Qed.
Theorem modest_roomy T : modest T -> roomy T.
Proof.
  intros (B & L & F & K). split; [exact B |]. split; [exact L |]. split; [| exact K]. intros s a q pre post lc SO D. destruct (F _ _ _ _ _ _ SO D) as [F1 F2].
  pose proof (down_ok _ _ _ _ _ D (source_ok _ _ _ SO)) as (T1 & T2 & KO).
  split; [unfold held; lia |]. intros mk conv out N OB.
  pose proof (links_le (map fst lc)) as LL. pose proof (unmarked_le pre). pose proof (unmarked_le post). pose proof (jai_le (map fst lc)) as LJ. rewrite map_length in LJ.
  destruct (few_safe pre post (map fst lc) T1 T2 KO) as (xs & E); [lia | lia |].
  destruct (assign_places_ok _ _ _ _ T1 T2 KO OB) as [(FI & JA & _)|(_ & UBE)]; [auto | congruence].
Qed.
