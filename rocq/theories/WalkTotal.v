(* The walk of terms.c goes through: the heads of a selbri. *)
From Coq Require Import String List NArith ZArith Bool Arith Lia.
From Verif Require Import Base TokData CmavoData TokModel StreamModel TreeModel TreeOutModel GrammarData GramModel GramSpec GramProofs PassProofs2
  ConvSpec ConvProofs2 ErasureProofs TermsModel TermsSpec WalkModel WalkSpec WalkProofs WalkProofs2 WalkProofs3 WalkProofs7.
From Verif Require OutModel PassModel.
Import OutModel(term_tag, TTT_BRIVLA, TTT_JAITAG, TTT_ABSTRACTION, TTT_ME, TTT_NUMBERMOI, TTT_GOhA, TTT_NUhA, TTT_ZEI).
Import ListNotations.
Open Scope string_scope.
Open Scope list_scope.

Section TOTAL.
  Variable T : tree.
  Hypothesis PT : parsed T.
  Hypothesis CT : is_nt "CHUNKS" T = true.
  (* the vectors of linked terms *)
  Hypothesis LT : forall p c la, subtree T p = Some (NT "TANRU_UNIT_1" [c; la]) -> small (sorts (terms_in (p ++ [1]) la)) = true.

  (* what is given can be given *)
  Definition fit (q : path) (b : args) : Prop :=
    let '(pre, post, lc) := b in
    args_ok b /\ List.length lc <= 20 /\ forall mk c, names T q mk c -> exists xs, assign_places pre post (map fst lc) = Ok xs.
  Definition able (p : path) (a : args) : Prop := forall q b, down T p a q b -> fit q b.
  Lemma able_step p a i b : able p a -> step T p a i b -> able (p ++ [i]) b.
  Proof. intros A S1 q c D. apply A. eapply d_step; eassumption. Qed.
  Lemma able_here p a : able p a -> fit p a.
  Proof. intro A. apply A. constructor. Qed.

  Lemma append_fits p pre post lc e n : able p (pre, post, lc ++ [(e, n)]) -> append lc e n = Ok (lc ++ [(e, n)]).
  Proof.
    intro A. destruct (able_here _ _ A) as (_ & L & _). rewrite app_length in L. cbn [List.length] in L. unfold append, MAX_TERMS_IN_VECTOR.
    replace (Nat.ltb (List.length lc) 20) with true by (symmetry; apply Nat.ltb_lt; lia). reflexivity.
  Qed.
  Lemma places_fit p pre post lc mk c : able p (pre, post, lc) -> names T p mk c -> forall mk', exists es, give_places pre post lc mk' = Ok es.
  Proof. intros A N mk'. destruct (able_here _ _ A) as (_ & _ & F). destruct (F _ _ N) as (xs & E). unfold give_places. rewrite E. cbn [obind]. eauto. Qed.
  Lemma both_fit p pre post lc mk c : able p (pre, post, lc) -> names T p mk c -> forall mk' x, exists es, give_both pre post lc mk' x = Ok es.
  Proof.
    intros A N mk' x. destruct (places_fit _ _ _ _ _ _ A N mk') as (es & E). unfold give_both. rewrite E. cbn [obind].
    destruct (able_here _ _ A) as ((_ & _ & LO) & _). destruct (inside_exists lc) as (l & I). destruct (conversion_ok lc l x LO I) as (n & es' & _ & E' & _).
    rewrite E'. cbn [obind]. eauto.
  Qed.

  Definition total (F : here -> list term -> list term -> chain -> outcome (list effect)) (K : string) (f : nat) : Prop :=
    forall (p : list nat) ch pre post lc, sits T (p, NT K ch) -> height (NT K ch) < f -> able p (pre, post, lc) -> exists es, F (p, NT K ch) pre post lc = Ok es.
  Definition total_co (f : nat) : Prop :=
    forall (p : list nat) ch post lc, sits T (p, NT "SELBRI_2" ch) -> height (NT "SELBRI_2" ch) < f -> 
      (forall i cc, nth_error ch i = Some (NT "SELBRI_2" cc) \/ ch = [NT "SELBRI_3" cc] /\ i = 0 -> able (p ++ [i]) ([], post, lc)) ->
      exists es, co_args f (p, NT "SELBRI_2" ch) post lc = Ok es.
  Definition totals (f : nat) : Prop :=
    total (tu2_args f) "TANRU_UNIT_2" f /\ total (tu1_args f) "TANRU_UNIT_1" f /\ total (selbri_6_args f) "SELBRI_6" f /\
    total (selbri_5_args f) "SELBRI_5" f /\ total (selbri_4_loop f) "SELBRI_4" f /\ total (selbri_3_args f) "SELBRI_3" f /\
    total (selbri_args f) "SELBRI" f /\ total_co f.

  Ltac use EE := match type of EE with _ = Ok ?es => match goal with |- exists _, obind ?X _ = _ => replace X with (Ok (A := list effect) es) by (symmetry; exact EE) end end; cbn [obind].
  Ltac of_count C := apply (counts_in _ _ C); cbn [In]; auto 10.
  Lemma low (p : list nat) k ch i K cc f : only K ch i cc -> height (NT k ch) < S f -> height (NT K cc) < f.
  Proof. intros O H. pose proof (height_nth k ch i _ (only_at _ _ _ _ O)). lia. Qed.
  Lemma kid_only p k ch K i cc : sits T (p, NT k ch) -> only K ch i cc -> kid T p k i K.
  Proof. intros SI O. exists ch, cc. split; [exact SI | apply only_at; exact O]. Qed.
  Lemma able_head p k ch K i cc a : sits T (p, NT k ch) -> only K ch i cc -> In (k, K) heads -> able p a -> able (p ++ [i]) a.
  Proof. intros SI O I A. eapply able_step; [exact A |]. eapply s_head; [eapply kid_only; eassumption | exact I]. Qed.

  Lemma tu2_word_total f (p : list nat) t ss ch pre post lc : sits T (p, NT "TANRU_UNIT_2" ch) -> fitsx (ST t :: ss) ch -> tu2_word t ss = true ->
    able p (pre, post, lc) -> exists es, tu2_args (S f) (p, NT "TANRU_UNIT_2" ch) pre post lc = Ok es.
  Proof.
    intros SI F SH AB. unfold tu2_word in SH. destruct (word_kid ss) eqn:WK; [| discriminate SH].
    assert (E : subtree T p = Some (NT "TANRU_UNIT_2" ch)) by exact SI.
    pose proof F as F0. destruct (fitsx_cons_word _ _ _ F) as (c & rest & -> & Wd & _).
    assert (NB : t <> T_BAhE) by (intros ->; discriminate SH).
    destruct (strip_word _ _ Wd NB) as (r & x & WX & IW & STR & _).
    pose proof (fun mk conv => names_word T p c rest r x mk conv E WX) as NW.
    assert (SC : stripped (p ++ [0], c) = Ok (p ++ 0 :: r, Leaf x)).
    { unfold stripped. cbn [fst snd]. rewrite STR. cbn [obind]. rewrite <- app_assoc. reflexivity. }
    cbn [tu2_args]. unfold type_check. cbn [snd is_nt]. change (child_ref (p, NT "TANRU_UNIT_2" (c :: rest)) 0) with (Ok (A := here) (p ++ [0], c)).
    rewrite String.eqb_refl. cbn [obind]. rewrite SC. cbn [obind fst snd].
    pose proof (word_value _ _ IW) as V. unfold value_of in V. pose proof IW as IW0. unfold is_word in IW0.
    destruct (dat x) as [t0|t0|s w q|t0|t0|t0|t0|t0|t0|t0|t0] eqn:D; try (destruct IW0; fail); try (injection V as V; subst t; discriminate SH); try discriminate V.
    all: try (eapply both_fit; [exact AB | eapply NW; split; reflexivity]).
    pose proof (word_tok _ _ _ _ _ IW D) as TS. subst s. clear V IW0.
    destruct t; try discriminate SH; cbn [tok_eqb] in NW; cbn beta iota.
    - eauto.
    - eapply both_fit; [exact AB | eapply NW; split; reflexivity].
    - apply Nat.eqb_eq in SH.
      destruct (find_one "SUMTI" (ST T_ME :: ss) p "TANRU_UNIT_2" (c :: rest) ltac:(naug) F SH) as (i & cc & FO & O). rewrite FO. cbn [obind asserted fst].
      destruct (places_fit p pre post lc (TTT_ME (p ++ [i])) None AB) with (mk' := TTT_ME (p ++ [i])) as (es & ->); [apply NW; exists i; split; [eapply kid_only; eassumption | auto] |].
      cbn [obind]. eauto.
    - apply Nat.eqb_eq in SH.
      destruct (find_one "MEX_OPERATOR" (ST T_NUhA :: ss) p "TANRU_UNIT_2" (c :: rest) ltac:(naug) F SH) as (i & cc & FO & O). rewrite FO. cbn [obind deref fst].
      destruct (both_fit p pre post lc (TTT_NUhA (p ++ [i])) (Some (p ++ 0 :: r)) AB) with (mk' := TTT_NUhA (p ++ [i])) (x := p ++ 0 :: r) as (es & ->); [apply NW; exists i; split; [eapply kid_only; eassumption | auto] |].
      cbn [obind]. eauto.
    - eauto.
  Qed.

  Lemma tu2_moi_total f (p : list nat) cc pre post lc : sits T (p, NT "TANRU_UNIT_2" [NT "NUMBER_MOI_TU2" cc]) -> able p (pre, post, lc) ->
    exists es, tu2_args (S f) (p, NT "TANRU_UNIT_2" [NT "NUMBER_MOI_TU2" cc]) pre post lc = Ok es.
  Proof.
    intros SI AB. assert (E : subtree T p = Some (NT "TANRU_UNIT_2" [NT "NUMBER_MOI_TU2" cc])) by exact SI.
    assert (PC : parsed (NT "NUMBER_MOI_TU2" cc)) by (eapply sits_parsed; [exact PT | exact CT | eapply sits_child; [exact SI | instantiate (1 := 0); reflexivity] | naug]).
    rewrite tu2_nt by naug. cbn zeta. rewrite String.eqb_refl. cbn [fst].
    destruct (alt _ _ _ PC ltac:(naug) moi_shape) as (ss & F & SH).
    destruct ss as [|[k|t|t] [|[k'|t'|t'] l]]; try discriminate SH; destruct t'; try discriminate SH.
    inversion F as [|ty ss0 c0 cs F'| | |]; subst. destruct (fitsx_cons_word _ _ _ F') as (c & rest & -> & Wd & F2). clear F F'.
    assert (KA : String.eqb k "AUGMENTED" = false).
    { destruct l as [|[k'|t|t] [|s' l]]; try discriminate SH; [apply negb_true_iff in SH; exact SH | apply andb_true_iff in SH; destruct SH as [SH _]; apply negb_true_iff in SH; exact SH]. }
    destruct (strip_word _ _ Wd ltac:(naug)) as (r & x & WX & IW & _ & _).
    assert (CX : cmtest x T_MOI = true) by (apply word_cm; [exact IW | discriminate..]).
    assert (CM : PassModel.cmavo_child 0 (NT k c0 :: c :: rest) T_MOI = Some (1 :: r)).
    { change (match (if String.eqb k "AUGMENTED" then PassModel.first_cmavo 0 c0 T_MOI else None) with Some j => Some [0; j] | None => PassModel.cmavo_child 1 (c :: rest) T_MOI end = Some (1 :: r)).
      rewrite KA. rewrite (cmavo_at T_MOI c rest 1 r x Wd ltac:(naug) WX CX). reflexivity. }
    change (child_ref (p ++ [0], NT "NUMBER_MOI_TU2" (NT k c0 :: c :: rest)) 0) with (Ok (A := here) ((p ++ [0]) ++ [0], NT k c0)).
    cbn [obind fst]. rewrite CM.
    edestruct (places_fit p pre post lc) as (es & ES); [exact AB | eapply (n_moi T p [] _ 1 c); [exact E | reflexivity | split; eassumption] |].
    rewrite ES. cbn [obind]. eauto.
  Qed.
  Lemma tu2_nu_total f (p : list nat) cc pre post lc : sits T (p, NT "TANRU_UNIT_2" [NT "ABSTRACTION" cc]) -> able p (pre, post, lc) ->
    exists es, tu2_args (S f) (p, NT "TANRU_UNIT_2" [NT "ABSTRACTION" cc]) pre post lc = Ok es.
  Proof.
    intros SI AB. assert (E : subtree T p = Some (NT "TANRU_UNIT_2" [NT "ABSTRACTION" cc])) by exact SI.
    assert (PC : parsed (NT "ABSTRACTION" cc)) by (eapply sits_parsed; [exact PT | exact CT | eapply sits_child; [exact SI | instantiate (1 := 0); reflexivity] | naug]).
    rewrite tu2_nt by naug. cbn zeta. cbn [String.eqb Ascii.eqb Bool.eqb].
    destruct (alt _ _ _ PC ltac:(naug) nu_shape) as (ss & F & SH).
    destruct ss as [|[k|t|t] l]; try discriminate SH. apply String.eqb_eq in SH. subst k. inversion F as [|ty ss0 c0 cs F'| | |]; subst. clear F F'.
    assert (PN : parsed (NT "NU_NAI_SEQ" c0)) by (eapply parsed_children; [exact PC | naug | left; reflexivity]).
    change (child_ref (p ++ [0], NT "ABSTRACTION" (NT "NU_NAI_SEQ" c0 :: cs)) 0) with (Ok (A := here) ((p ++ [0]) ++ [0], NT "NU_NAI_SEQ" c0)).
    cbn [obind]. unfold type_check. cbn [snd is_nt]. rewrite String.eqb_refl. cbn [obind].
    destruct (alt _ _ _ PN ltac:(naug) nns_shape) as (ss & F & SH).
    destruct ss as [|[k|t|t] l']; try discriminate SH.
    - apply String.eqb_eq in SH. subst k. inversion F as [|ty ss0 c1 cs' F'| | |]; subst. clear F F'.
      change (child_ref ((p ++ [0]) ++ [0], NT "NU_NAI_SEQ" (NT "NU_NAI_SEQ" c1 :: cs')) 0) with (Ok (A := here) (((p ++ [0]) ++ [0]) ++ [0], NT "NU_NAI_SEQ" c1)).
      cbn [obind]. unfold stripped. cbn [fst snd]. rewrite strip_nt by naug. cbn [obind snd is_cm]. eauto.
    - destruct t; try discriminate SH. destruct (fitsx_cons_word _ _ _ F) as (c & rest & -> & Wd & _).
      destruct (strip_word _ _ Wd ltac:(naug)) as (r & x & WX & IW & STR & _).
      assert (CX : cmtest x T_NU = true) by (apply word_cm; [exact IW | discriminate..]).
      change (child_ref ((p ++ [0]) ++ [0], NT "NU_NAI_SEQ" (c :: rest)) 0) with (Ok (A := here) (((p ++ [0]) ++ [0]) ++ [0], c)).
      cbn [obind]. unfold stripped. cbn [fst snd]. rewrite STR. cbn [obind snd fst is_cm]. rewrite CX.
      eapply both_fit; [exact AB |]. eapply n_nu; [exact E | split; eassumption].
  Qed.

  Lemma tu2_total f : totals f -> total (tu2_args (S f)) "TANRU_UNIT_2" (S f).
  Proof.
    intros (H2 & _ & _ & _ & _ & H3 & _) p ch pre post lc SI HT AB.
    pose proof (here_parsed T PT CT _ _ _ SI ltac:(naug)) as PC.
    destruct (alt _ _ _ PC ltac:(naug) tu2_shape) as (ss & F & SH).
    destruct ss as [|[k|t|t] l]; try discriminate SH; [| eapply tu2_word_total; eassumption].
    destruct l as [|s' l]; [| discriminate SH]. destruct (fits1 _ _ F) as (cc & ->). clear F.
    assert (E : subtree T p = Some (NT "TANRU_UNIT_2" [NT k cc])) by exact SI.
    assert (SK : sits T (p ++ [0], NT k cc)) by (eapply sits_child; [exact SI | reflexivity]).
    assert (HK : height (NT k cc) < S f) by (pose proof (height_nth "TANRU_UNIT_2" [NT k cc] 0 _ eq_refl); lia).
    assert (KD : kid T p "TANRU_UNIT_2" 0 k) by (eexists _, _; split; [exact E | reflexivity]).
    assert (AK : In ("TANRU_UNIT_2", k) heads -> able (p ++ [0]) (pre, post, lc)) by (intro I; eapply able_step; [exact AB | eapply s_head; eassumption]).
    apply has_In in SH. unfold tu2_kinds in SH. cbn [In] in SH.
    destruct SH as [<-|[<-|[<-|[<-|[<-|[<-|[<-|[]]]]]]]]; try (specialize (AK ltac:(cbn [In heads]; auto 30))).
    - rewrite tu2_nt by naug. cbn zeta. cbn [String.eqb Ascii.eqb Bool.eqb].
      destruct (alt _ _ _ (here_parsed T PT CT _ _ _ SK ltac:(naug)) ltac:(naug) ke_tu2_shape) as (ss & F & C).
      destruct (find_one "SELBRI_3" ss (p ++ [0]) "KE_SELBRI3_TU2" cc ltac:(naug) F ltac:(of_count C)) as (i & dd & FO & O). rewrite FO. cbn [obind asserted].
      apply H3; [eapply child_sits; eassumption | eapply low; [exact p | exact O | exact HK] | eapply able_head; [exact SK | exact O | cbn [In heads]; auto 30 | exact AK]].
    - eapply tu2_moi_total; eassumption.
    - rewrite tu2_nt by naug. cbn zeta. cbn [String.eqb Ascii.eqb Bool.eqb].
      destruct (alt _ _ _ (here_parsed T PT CT _ _ _ SK ltac:(naug)) ltac:(naug) se_shape) as (ss & F & C).
      destruct ss as [|[k|t|t] l]; try discriminate C. destruct t; try discriminate C. apply Nat.eqb_eq in C.
      destruct (find_one "TANRU_UNIT_2" _ (p ++ [0]) "SE_TU2" cc ltac:(naug) F C) as (i & dd & FO & O). 
      destruct (fitsx_cons_word _ _ _ F) as (c & rest & -> & Wd & _).
      destruct (se_conv ((p ++ [0]) ++ [0]) _ Wd) as (r & x & n & WX & RE & IN).
      change (child_ref (p ++ [0], NT "SE_TU2" (c :: rest)) 0) with (Ok (A := here) ((p ++ [0]) ++ [0], c)). cbn [obind].
      rewrite FO. cbn [obind asserted fst]. rewrite RE. cbn [obind].
      assert (A2 : able ((p ++ [0]) ++ [i]) (pre, post, lc ++ [(LC_SE n, (p ++ [0]) ++ [0])])).
      { eapply able_step; [exact AK |]. eapply s_se; [exact SK | exact WX | exact IN | eapply kid_only; eassumption]. }
      rewrite (append_fits _ _ _ _ _ _ A2). cbn [obind].
      apply H2; [eapply child_sits; eassumption | eapply low; [exact p | exact O | exact HK] | exact A2].
    - rewrite tu2_nt by naug. cbn zeta. cbn [String.eqb Ascii.eqb Bool.eqb].
      destruct (alt _ _ _ (here_parsed T PT CT _ _ _ SK ltac:(naug)) ltac:(naug) jai_tag_shape) as (ss & F & C).
      destruct (find_one "TANRU_UNIT_2" ss (p ++ [0]) "JAI_TAG_TU2" cc ltac:(naug) F ltac:(of_count C)) as (i & dd & FO & O).
      destruct (find_one "TAG" ss (p ++ [0]) "JAI_TAG_TU2" cc ltac:(naug) F ltac:(of_count C)) as (j & ee & FT & OT).
      rewrite FT. cbn [obind]. rewrite FO. cbn [obind asserted fst].
      assert (A2 : able ((p ++ [0]) ++ [i]) (pre, post, lc ++ [(LC_TAG ((p ++ [0]) ++ [j]) ((p ++ [0]) ++ [i]), [])])).
      { eapply able_step; [exact AK |]. eapply s_jai_tag; eapply kid_only; eassumption. }
      rewrite (append_fits _ _ _ _ _ _ A2). cbn [obind].
      destruct (H2 _ dd _ _ _ (child_sits T _ _ _ _ _ _ SK O) (low p _ _ _ _ _ _ O HK) A2) as (es & EE).
      use EE. eauto.
    - rewrite tu2_nt by naug. cbn zeta. cbn [String.eqb Ascii.eqb Bool.eqb].
      destruct (alt _ _ _ (here_parsed T PT CT _ _ _ SK ltac:(naug)) ltac:(naug) jai_shape) as (ss & F & C).
      destruct (find_one "TANRU_UNIT_2" ss (p ++ [0]) "JAI_TU2" cc ltac:(naug) F ltac:(of_count C)) as (i & dd & FO & O).
      rewrite FO. cbn [obind asserted fst].
      assert (A2 : able ((p ++ [0]) ++ [i]) (pre, post, lc ++ [(LC_JAI, [])])).
      { eapply able_step; [exact AK |]. eapply s_jai; eapply kid_only; eassumption. }
      rewrite (append_fits _ _ _ _ _ _ A2). cbn [obind].
      apply H2; [eapply child_sits; eassumption | eapply low; [exact p | exact O | exact HK] | exact A2].
    - rewrite tu2_nt by naug. cbn zeta. cbn [String.eqb Ascii.eqb Bool.eqb].
      destruct (alt _ _ _ (here_parsed T PT CT _ _ _ SK ltac:(naug)) ltac:(naug) nahe_shape) as (ss & F & C).
      destruct (find_one "TANRU_UNIT_2" ss (p ++ [0]) "NAHE_TU2" cc ltac:(naug) F ltac:(of_count C)) as (i & dd & FO & O).
      rewrite FO. cbn [obind asserted fst].
      apply H2; [eapply child_sits; eassumption | eapply low; [exact p | exact O | exact HK] | eapply able_head; [exact SK | exact O | cbn [In heads]; auto 30 | exact AK]].
    - eapply tu2_nu_total; eassumption.
  Qed.

  Lemma tu1_total f : totals f -> total (tu1_args (S f)) "TANRU_UNIT_1" (S f).
  Proof.
    intros (H2 & _) p ch pre post lc SI HT AB. pose proof (here_parsed T PT CT _ _ _ SI ltac:(naug)) as PC.
    destruct (tu1_inv _ PC) as (cc & [->|(dd & ->)]).
    - change (tu1_args (S f) (p, NT "TANRU_UNIT_1" [NT "TANRU_UNIT_2" cc]) pre post lc) with
        (do a <- tu2_args f (p ++ [0], NT "TANRU_UNIT_2" cc) pre post lc; Ok (a ++ [Done p])).
      pose proof (height_nth "TANRU_UNIT_1" [NT "TANRU_UNIT_2" cc] 0 _ eq_refl) as HK.
      destruct (H2 (p ++ [0]) cc pre post lc) as (es & ->); [eapply sits_child; [exact SI | reflexivity] | lia | | cbn [obind]; eauto].
      eapply able_step; [exact AB |]. eapply s_alone; [exact SI | cbn [In alone]; auto 10].
    - destruct (links_of_spec p _ _ PC) as [LS _]. cbn zeta in LS.
      change (tu1_args (S f) (p, NT "TANRU_UNIT_1" [NT "TANRU_UNIT_2" cc; NT "LINKARGS" dd]) pre post lc) with
        (do v <- links_of (p, NT "TANRU_UNIT_1" [NT "TANRU_UNIT_2" cc; NT "LINKARGS" dd]);
         do a <- match v with
              | Some v => do lc <- append lc (LC_LINKS v) []; tu2_args f (p ++ [0], NT "TANRU_UNIT_2" cc) pre post lc
              | None => tu2_args f (p ++ [0], NT "TANRU_UNIT_2" cc) pre post lc
              end;
         Ok (a ++ [Done p])).
      rewrite LS. pose proof (LT p _ _ SI) as LT1. rewrite LT1. cbn [obind].
      assert (A2 : able (p ++ [0]) (pre, post, lc ++ [(LC_LINKS (sorts (terms_in (p ++ [1]) (NT "LINKARGS" dd))), [])])) by (eapply able_step; [exact AB |]; eapply s_links; exact SI).
      rewrite (append_fits _ _ _ _ _ _ A2). cbn [obind].
      pose proof (height_nth "TANRU_UNIT_1" [NT "TANRU_UNIT_2" cc; NT "LINKARGS" dd] 0 _ eq_refl) as HK.
      destruct (H2 (p ++ [0]) cc pre post _ (sits_child _ _ _ _ 0 _ SI eq_refl) ltac:(lia) A2) as (es & EE). use EE. eauto.
  Qed.

  Lemma s6_total f : totals f -> total (selbri_6_args (S f)) "SELBRI_6" (S f).
  Proof.
    intros (_ & H1 & H6 & _ & _ & _ & HS & _) p ch pre post lc SI HT AB. pose proof (here_parsed T PT CT _ _ _ SI ltac:(naug)) as PC.
    change (selbri_6_args (S f) (p, NT "SELBRI_6" ch) pre post lc) with
      (if Nat.eqb (List.length ch) 1 then
        do tu <- child_ref (p, NT "SELBRI_6" ch) 0;
        do n <- nch tu;
        if Nat.ltb 1 n then Ok []
        else do tu1 <- child_ref tu 0; tu1_args f tu1 pre post lc
      else
        do tu <- find_child (p, NT "SELBRI_6" ch) 1 "TANRU_UNIT";
        match tu with
        | Some _ => do c <- find_child (p, NT "SELBRI_6" ch) 1 "SELBRI_6"; do c <- deref c; selbri_6_args f c pre post lc
        | None =>
            do s <- find_child (p, NT "SELBRI_6" ch) 1 "SELBRI";
            do c <- find_child (p, NT "SELBRI_6" ch) 1 "SELBRI_6";
            do s <- deref s; do a <- selbri_args f s pre post lc;
            do c <- deref c; do b <- selbri_6_args f c pre post lc;
            Ok (a ++ b)
        end).
    destruct (alt _ _ _ PC ltac:(naug) s6_shape) as (ss & F & SH).
    assert (SHP : ss = [SN "TANRU_UNIT"] \/ counts [("TANRU_UNIT", 1); ("SELBRI_6", 1); ("SELBRI", 0)] ss = true \/ counts [("TANRU_UNIT", 0); ("SELBRI_6", 1); ("SELBRI", 1)] ss = true).
    { destruct ss as [|[k|t|t] [|s' l]]; [| apply String.eqb_eq in SH; subst k; auto | ..];
        right; match type of SH with (if ?b then _ else _) = _ => destruct b; [left; reflexivity | right; exact SH] end. }
    clear SH. destruct SHP as [->|[C|C]].
    - destruct (fits1 _ _ F) as (cc & ->). cbn [List.length Nat.eqb].
      assert (ST : sits T (p ++ [0], NT "TANRU_UNIT" cc)) by (eapply sits_child; [exact SI | reflexivity]).
      change (child_ref (p, NT "SELBRI_6" [NT "TANRU_UNIT" cc]) 0) with (Ok (A := here) (p ++ [0], NT "TANRU_UNIT" cc)). cbn [obind nch snd].
      destruct (alt _ _ _ (here_parsed T PT CT _ _ _ ST ltac:(naug)) ltac:(naug) tu_shape) as (ss & F' & SH).
      destruct ss as [|[k|t|t] [|[k'|t'|t'] l]]; try discriminate SH.
      + apply String.eqb_eq in SH. subst k. destruct (fits1 _ _ F') as (dd & ->). cbn [List.length Nat.ltb Nat.leb].
        change (child_ref (p ++ [0], NT "TANRU_UNIT" [NT "TANRU_UNIT_1" dd]) 0) with (Ok (A := here) ((p ++ [0]) ++ [0], NT "TANRU_UNIT_1" dd)). cbn [obind].
        pose proof (height_nth "SELBRI_6" [NT "TANRU_UNIT" [NT "TANRU_UNIT_1" dd]] 0 _ eq_refl) as HK.
        pose proof (height_nth "TANRU_UNIT" [NT "TANRU_UNIT_1" dd] 0 _ eq_refl) as HK2.
        apply H1; [eapply sits_child; [exact ST | reflexivity] | lia |].
        eapply able_step; [| eapply s_alone; [exact ST | cbn [In alone]; auto 10]].
        eapply able_step; [exact AB | eapply s_alone; [exact SI | cbn [In alone]; auto 10]].
      + pose proof (several _ _ _ _ F') as L. replace (Nat.ltb 1 (List.length cc)) with true by (symmetry; apply Nat.ltb_lt; lia). eauto.
    - destruct (find_one "TANRU_UNIT" ss p "SELBRI_6" ch ltac:(naug) F ltac:(of_count C)) as (i & cc & F1 & O1).
      destruct (find_one "SELBRI_6" ss p "SELBRI_6" ch ltac:(naug) F ltac:(of_count C)) as (j & dd & F2 & O2).
      assert (KD : "TANRU_UNIT" <> "SELBRI_6") by discriminate. destruct (only_two _ _ _ _ _ _ _ KD O1 O2) as [_ L]. rewrite L. rewrite F1. cbn [obind].
      rewrite F2. cbn [obind deref]. 
      apply H6; [eapply child_sits; eassumption | eapply low; [exact p | exact O2 | exact HT] | eapply able_head; [exact SI | exact O2 | cbn [In heads]; auto 30 | exact AB]].
    - destruct (find_no "TANRU_UNIT" ss p "SELBRI_6" ch ltac:(naug) F ltac:(of_count C)) as (F0 & NO).
      destruct (find_one "SELBRI" ss p "SELBRI_6" ch ltac:(naug) F ltac:(of_count C)) as (i & cc & F1 & O1).
      destruct (find_one "SELBRI_6" ss p "SELBRI_6" ch ltac:(naug) F ltac:(of_count C)) as (j & dd & F2 & O2).
      assert (KD : "SELBRI" <> "SELBRI_6") by discriminate. destruct (only_two _ _ _ _ _ _ _ KD O1 O2) as [_ L]. rewrite L. rewrite F0. cbn [obind].
      rewrite F1. cbn [obind]. rewrite F2. cbn [obind deref].
      destruct (HS (p ++ [i]) cc pre post lc (child_sits T _ _ _ _ _ _ SI O1) (low p _ _ _ _ _ _ O1 HT)) as (es & EE); [eapply able_head; [exact SI | exact O1 | cbn [In heads]; auto 30 | exact AB] |]. use EE.
      destruct (H6 (p ++ [j]) dd pre post lc (child_sits T _ _ _ _ _ _ SI O2) (low p _ _ _ _ _ _ O2 HT)) as (es' & E2); [eapply able_head; [exact SI | exact O2 | cbn [In heads]; auto 30 | exact AB] |]. use E2. eauto.
  Qed.

  Lemma s5_total f : totals f -> total (selbri_5_args (S f)) "SELBRI_5" (S f).
  Proof.
    intros (_ & _ & H6 & H5 & _) p ch pre post lc SI HT AB. pose proof (here_parsed T PT CT _ _ _ SI ltac:(naug)) as PC.
    change (selbri_5_args (S f) (p, NT "SELBRI_5" ch) pre post lc) with
      (do s6 <- find_child (p, NT "SELBRI_5" ch) 1 "SELBRI_6"; do s6 <- deref s6;
       do a <- selbri_6_args f s6 pre post lc;
       do c <- find_child (p, NT "SELBRI_5" ch) 1 "SELBRI_5";
       match c with None => Ok a | Some c => do b <- selbri_5_args f c pre post lc; Ok (a ++ b) end).
    destruct (alt _ _ _ PC ltac:(naug) s5_shape) as (ss & F & SH). apply either_inv in SH.
    assert (C6 : count "SELBRI_6" ss = 1) by (destruct SH as [C|C]; of_count C).
    destruct (find_one "SELBRI_6" ss p "SELBRI_5" ch ltac:(naug) F C6) as (i & cc & F1 & O1). rewrite F1. cbn [obind deref].
    destruct (H6 (p ++ [i]) cc pre post lc (child_sits T _ _ _ _ _ _ SI O1) (low p _ _ _ _ _ _ O1 HT)) as (es & EE); [eapply able_head; [exact SI | exact O1 | cbn [In heads]; auto 30 | exact AB] |].
    use EE. destruct SH as [C|C].
    - destruct (find_no "SELBRI_5" ss p "SELBRI_5" ch ltac:(naug) F ltac:(of_count C)) as (F0 & NO). rewrite F0. cbn [obind]. eauto.
    - destruct (find_one "SELBRI_5" ss p "SELBRI_5" ch ltac:(naug) F ltac:(of_count C)) as (j & dd & F2 & O2). rewrite F2. cbn [obind].
      destruct (H5 (p ++ [j]) dd pre post lc (child_sits T _ _ _ _ _ _ SI O2) (low p _ _ _ _ _ _ O2 HT)) as (es' & E2); [eapply able_head; [exact SI | exact O2 | cbn [In heads]; auto 30 | exact AB] |].
      use E2. eauto.
  Qed.

  Lemma s4_total f : totals f -> total (selbri_4_loop (S f)) "SELBRI_4" (S f).
  Proof.
    intros (_ & _ & _ & H5 & H4 & H3 & _) p ch pre post lc SI HT AB. pose proof (here_parsed T PT CT _ _ _ SI ltac:(naug)) as PC.
    change (selbri_4_loop (S f) (p, NT "SELBRI_4" ch) pre post lc) with
     (do s5 <- find_child (p, NT "SELBRI_4" ch) 1 "SELBRI_5";
      do a <- match s5 with
              | Some s5 => selbri_5_args f s5 pre post lc
              | None =>
                  do k <- find_child (p, NT "SELBRI_4" ch) 1 "KE_SELBRI_3"; do k <- asserted k;
                  do s3 <- find_child k 1 "SELBRI_3"; do s3 <- asserted s3; selbri_3_args f s3 pre post lc
              end;
      do c <- find_child (p, NT "SELBRI_4" ch) 1 "SELBRI_4";
      match c with None => Ok a | Some c => do b <- selbri_4_loop f c pre post lc; Ok (a ++ b) end).
    destruct (alt _ _ _ PC ltac:(naug) s4_shape) as (ss & F & SH). apply orb_true_iff in SH.
    assert (REST : count "SELBRI_4" ss = 0 \/ count "SELBRI_4" ss = 1).
    { destruct SH as [SH|C]; [apply either_inv in SH; destruct SH as [C|C] |]; [left | right | right]; of_count C. }
    assert (TL : forall a : list effect, exists es, (do c <- find_child (p, NT "SELBRI_4" ch) 1 "SELBRI_4";
      match c with None => Ok a | Some c => do b <- selbri_4_loop f c pre post lc; Ok (a ++ b) end) = Ok es).
    { intro a. destruct REST as [C|C].
      - destruct (find_no "SELBRI_4" ss p "SELBRI_4" ch ltac:(naug) F C) as (F0 & NO). rewrite F0. cbn [obind]. eauto.
      - destruct (find_one "SELBRI_4" ss p "SELBRI_4" ch ltac:(naug) F C) as (j & dd & F2 & O2). rewrite F2. cbn [obind].
        destruct (H4 (p ++ [j]) dd pre post lc (child_sits T _ _ _ _ _ _ SI O2) (low p _ _ _ _ _ _ O2 HT)) as (es' & E2); [eapply able_head; [exact SI | exact O2 | cbn [In heads]; auto 30 | exact AB] |].
        use E2. eauto. }
    assert (Q : count "SELBRI_5" ss = 1 \/ count "SELBRI_5" ss = 0 /\ count "KE_SELBRI_3" ss = 1).
    { destruct SH as [SH|C]; [apply either_inv in SH; destruct SH as [C|C] |]; [left; of_count C | left; of_count C | right; split; of_count C]. }
    destruct Q as [C5|[C5 CK]].
    - destruct (find_one "SELBRI_5" ss p "SELBRI_4" ch ltac:(naug) F C5) as (i & cc & F1 & O1). rewrite F1. cbn [obind].
      destruct (H5 (p ++ [i]) cc pre post lc (child_sits T _ _ _ _ _ _ SI O1) (low p _ _ _ _ _ _ O1 HT)) as (es' & E2); [eapply able_head; [exact SI | exact O1 | cbn [In heads]; auto 30 | exact AB] |].
      use E2. apply TL.
    - destruct (find_no "SELBRI_5" ss p "SELBRI_4" ch ltac:(naug) F C5) as (F0 & NO). rewrite F0. cbn [obind].
      destruct (find_one "KE_SELBRI_3" ss p "SELBRI_4" ch ltac:(naug) F CK) as (i & cc & F1 & O1). rewrite F1. cbn [obind asserted].
      pose proof (child_sits T _ _ _ _ _ _ SI O1) as SK. destruct (alt _ _ _ (here_parsed T PT CT _ _ _ SK ltac:(naug)) ltac:(naug) ke_shape) as (ss' & F' & C').
      destruct (find_one "SELBRI_3" ss' (p ++ [i]) "KE_SELBRI_3" cc ltac:(naug) F' ltac:(of_count C')) as (u & ee & F3 & O3). rewrite F3. cbn [obind asserted].
      assert (AK : able (p ++ [i]) (pre, post, lc)) by (eapply able_head; [exact SI | exact O1 | cbn [In heads]; auto 30 | exact AB]).
      pose proof (low p _ _ _ _ _ _ O1 HT) as L1.
      assert (L2 : height (NT "SELBRI_3" ee) < f) by (eapply low; [exact p | exact O3 | apply Nat.lt_lt_succ_r; exact L1]).
      destruct (H3 _ ee pre post lc (child_sits T _ _ _ _ _ _ SK O3) L2) as (es' & E2); [eapply able_head; [exact SK | exact O3 | cbn [In heads]; auto 30 | exact AK] |].
      use E2. apply TL.
  Qed.

  Lemma s3_total f : totals f -> total (selbri_3_args (S f)) "SELBRI_3" (S f).
  Proof.
    intros (_ & _ & _ & H5 & H4 & H3 & _) p ch pre post lc SI HT AB. pose proof (here_parsed T PT CT _ _ _ SI ltac:(naug)) as PC.
    change (selbri_3_args (S f) (p, NT "SELBRI_3" ch) pre post lc) with
     (do s4 <- find_child (p, NT "SELBRI_3" ch) 1 "SELBRI_4"; do s4 <- deref s4;
      do n <- nch s4;
      if Nat.ltb 1 n then selbri_4_loop f s4 pre post lc
      else do s5 <- find_child s4 1 "SELBRI_5"; do s5 <- deref s5; selbri_5_args f s5 pre post lc).
    destruct (alt _ _ _ PC ltac:(naug) s3_shape) as (ss & F & C).
    destruct (find_one "SELBRI_4" ss p "SELBRI_3" ch ltac:(naug) F ltac:(of_count C)) as (i & cc & F1 & O1).
    rewrite F1. cbn [obind deref nch snd]. pose proof (child_sits T _ _ _ _ _ _ SI O1) as S4. pose proof (low p _ _ _ _ _ _ O1 HT) as L1.
    assert (A4 : able (p ++ [i]) (pre, post, lc)) by (eapply able_head; [exact SI | exact O1 | cbn [In heads]; auto 30 | exact AB]).
    destruct (s4_one _ (here_parsed T PT CT _ _ _ S4 ltac:(naug))) as [(dd & ->)|L].
    - change (find_child (p ++ [i], NT "SELBRI_4" [NT "SELBRI_5" dd]) 1 "SELBRI_5") with (Ok (A := option here) (Some ((p ++ [i]) ++ [0], NT "SELBRI_5" dd))).
      cbn [List.length Nat.ltb Nat.leb obind deref]. apply H5; [eapply sits_child; [exact S4 | reflexivity] | |].
      + pose proof (height_nth "SELBRI_4" [NT "SELBRI_5" dd] 0 _ eq_refl). lia.
      + eapply able_step; [exact A4 |]. eapply s_head; [eexists _, _; split; [exact S4 | reflexivity] | cbn [In heads]; auto 30].
    - rewrite L. apply H4; assumption.
  Qed.

  Lemma co_total f : totals f -> total_co (S f).
  Proof.
    intros (_ & _ & _ & _ & _ & H3 & _ & HC) p ch post lc SI HT AB. pose proof (here_parsed T PT CT _ _ _ SI ltac:(naug)) as PC.
    change (co_args (S f) (p, NT "SELBRI_2" ch) post lc) with
      (if Nat.ltb 1 (List.length ch) then do c <- find_child (p, NT "SELBRI_2" ch) 1 "SELBRI_2"; do c <- deref c; co_args f c post lc
       else do s3 <- child_ref (p, NT "SELBRI_2" ch) 0; selbri_3_args f s3 [] post lc).
    destruct (s2_inv _ PC) as [(ee & ->)|(ee & rest & u & gg & -> & O3 & O4 & L & FC)].
    - cbn [List.length Nat.ltb Nat.leb]. change (child_ref (p, NT "SELBRI_2" [NT "SELBRI_3" ee]) 0) with (Ok (A := here) (p ++ [0], NT "SELBRI_3" ee)). cbn [obind].
      apply H3; [eapply sits_child; [exact SI | reflexivity] | pose proof (height_nth "SELBRI_2" [NT "SELBRI_3" ee] 0 _ eq_refl); lia |].
      apply (AB 0 ee). auto.
    - rewrite L, FC. cbn [obind deref]. pose proof (child_sits T _ _ _ _ _ _ SI O4) as S2.
      assert (A2 : able (p ++ [u]) ([], post, lc)) by (apply (AB u gg); left; apply only_at; exact O4).
      apply HC; [exact S2 | eapply low; [exact p | exact O4 | exact HT] |].
      intros i cc [N|[-> ->]].
      + eapply able_step; [exact A2 |]. eapply s_co_rest. exists gg, cc. split; [exact S2 | exact N].
      + eapply able_step; [exact A2 |]. eapply s_alone; [exact S2 | cbn [In alone]; auto 10].
  Qed.

  Lemma selbri_total f : totals f -> total (selbri_args (S f)) "SELBRI" (S f).
  Proof.
    intros (_ & _ & _ & _ & _ & H3 & HS & HC) p ch pre post lc SI HT AB. pose proof (here_parsed T PT CT _ _ _ SI ltac:(naug)) as PC.
    change (selbri_args (S f) (p, NT "SELBRI" ch) pre post lc) with
     (do s1 <- find_child (p, NT "SELBRI" ch) 1 "SELBRI_1"; do s1 <- deref s1;
      do s2 <- find_child s1 1 "SELBRI_2";
      match s2 with
      | None => do c <- find_child s1 1 "SELBRI"; do c <- asserted c; selbri_args f c pre post lc
      | Some s2 =>
          do s3 <- child_ref s2 0;
          do n <- nch s2;
          if Nat.ltb 1 n then
            do a <- selbri_3_args f s3 pre [] lc;
            do b <- co_args f s2 post lc;
            Ok (a ++ b)
          else selbri_3_args f s3 pre post lc
      end).
    destruct (alt _ _ _ PC ltac:(naug) selbri_shape) as (ss & F & C).
    destruct (find_one "SELBRI_1" ss p "SELBRI" ch ltac:(naug) F ltac:(of_count C)) as (i & cc & F1 & O1).
    rewrite F1. cbn [obind deref]. pose proof (child_sits T _ _ _ _ _ _ SI O1) as S1. pose proof (low p _ _ _ _ _ _ O1 HT) as L1.
    assert (A1 : able (p ++ [i]) (pre, post, lc)) by (eapply able_head; [exact SI | exact O1 | cbn [In heads]; auto 30 | exact AB]).
    destruct (alt _ _ _ (here_parsed T PT CT _ _ _ S1 ltac:(naug)) ltac:(naug) s1_shape) as (ss' & F' & SH). apply either_inv in SH. clear C. destruct SH as [C|C].
    - destruct (find_one "SELBRI_2" ss' (p ++ [i]) "SELBRI_1" cc ltac:(naug) F' ltac:(of_count C)) as (j & dd & F2 & O2).
      rewrite F2. cbn [obind]. pose proof (child_sits T _ _ _ _ _ _ S1 O2) as S2. assert (L2 : height (NT "SELBRI_2" dd) < f) by (eapply low; [exact p | exact O2 | apply Nat.lt_lt_succ_r; exact L1]).
      assert (A2 : able ((p ++ [i]) ++ [j]) (pre, post, lc)) by (eapply able_head; [exact S1 | exact O2 | cbn [In heads]; auto 30 | exact A1]).
      assert (TOP : forall q n, (p ++ [i]) ++ [j] = q ++ [n] -> ~ kid T q "SELBRI_2" n "SELBRI_2").
      { intros q n EQ (c1 & c2 & E1 & _). apply app_inj_tail in EQ. destruct EQ as [<- <-]. unfold sits in S1. cbn [fst snd] in S1. rewrite S1 in E1. discriminate E1. }
      destruct (s2_inv _ (here_parsed T PT CT _ _ _ S2 ltac:(naug))) as [(ee & ->)|(ee & rest & u & gg & -> & O3 & O4 & L & FC)].
      + change (child_ref ((p ++ [i]) ++ [j], NT "SELBRI_2" [NT "SELBRI_3" ee]) 0) with (Ok (A := here) (((p ++ [i]) ++ [j]) ++ [0], NT "SELBRI_3" ee)).
        cbn [obind nch snd List.length Nat.ltb Nat.leb]. apply H3; [eapply sits_child; [exact S2 | reflexivity] | pose proof (height_nth "SELBRI_2" [NT "SELBRI_3" ee] 0 _ eq_refl); lia |].
        eapply able_step; [exact A2 |]. eapply s_alone; [exact S2 | cbn [In alone]; auto 10].
      + change (child_ref ((p ++ [i]) ++ [j], NT "SELBRI_2" (NT "SELBRI_3" ee :: rest)) 0) with (Ok (A := here) (((p ++ [i]) ++ [j]) ++ [0], NT "SELBRI_3" ee)).
        cbn [obind nch snd]. rewrite L.
        assert (L3 : height (NT "SELBRI_3" ee) < f) by (pose proof (height_nth "SELBRI_2" (NT "SELBRI_3" ee :: rest) 0 _ eq_refl); lia).
        destruct (H3 (((p ++ [i]) ++ [j]) ++ [0]) ee pre [] lc (sits_child _ _ _ _ 0 _ S2 eq_refl) L3) as (es & E2).
        { eapply able_step; [exact A2 |]. eapply s_co_first; [exact (kid_only _ _ _ _ _ _ S2 O3) | exact (kid_only _ _ _ _ _ _ S2 O4) | exact TOP]. }
        use E2. destruct (HC _ _ post lc S2 L2) as (es' & E3).
        { intros n c' [N|[X _]]; [| rewrite X in L; discriminate L]. eapply able_step; [exact A2 |]. eapply s_co_rest. eexists _, _. split; [exact S2 | exact N]. }
        use E3. eauto.
    - destruct (find_no "SELBRI_2" ss' (p ++ [i]) "SELBRI_1" cc ltac:(naug) F' ltac:(of_count C)) as (F0 & NO).
      destruct (find_one "SELBRI" ss' (p ++ [i]) "SELBRI_1" cc ltac:(naug) F' ltac:(of_count C)) as (j & dd & F2 & O2).
      rewrite F0. cbn [obind]. rewrite F2. cbn [obind asserted].
      apply HS; [eapply child_sits; eassumption | eapply low; [exact p | exact O2 | apply Nat.lt_lt_succ_r; exact L1] | eapply able_head; [exact S1 | exact O2 | cbn [In heads]; auto 30 | exact A1]].
  Qed.

  Theorem totals_ok f : totals f.
  Proof.
    induction f as [|f IH].
    - unfold totals, total, total_co. repeat split; intros; match goal with H : _ < 0 |- _ => destruct (Nat.nlt_0_r _ H) end.
    - split; [apply tu2_total; exact IH |]. split; [apply tu1_total; exact IH |]. split; [apply s6_total; exact IH |]. split; [apply s5_total; exact IH |].
      split; [apply s4_total; exact IH |]. split; [apply s3_total; exact IH |]. split; [apply selbri_total; exact IH | apply co_total; exact IH].
  Qed.
End TOTAL.
