(* The walk of terms.c: all that is done below a selbri. *)
From Coq Require Import String List NArith ZArith Bool Arith Lia.
From Verif Require Import Base TokData CmavoData TokModel StreamModel TreeModel TreeOutModel GrammarData GramModel GramSpec GramProofs PassProofs2
  ConvSpec ConvProofs2 ErasureProofs TermsModel TermsSpec WalkModel WalkSpec WalkProofs WalkProofs2.
From Verif Require OutModel PassModel.
Import OutModel(term_tag, TTT_BRIVLA, TTT_JAITAG, TTT_ABSTRACTION, TTT_ME, TTT_NUMBERMOI, TTT_GOhA, TTT_NUhA, TTT_ZEI).
Import ListNotations.
Open Scope string_scope.
Open Scope list_scope.

Lemma append_inv lc e n lc' : append lc e n = Ok lc' -> lc' = lc ++ [(e, n)].
Proof. unfold append. destruct (Nat.ltb _ _); intro H; [injection H as <-; reflexivity | discriminate H]. Qed.
Lemma only_two K K' ch i j cc dd : K <> K' -> only K ch i cc -> only K' ch j dd -> Nat.ltb 1 (List.length ch) = true /\ Nat.eqb (List.length ch) 1 = false.
Proof.
  intros N O O'. assert (A : nth_error ch i = Some (NT K cc)) by (apply O; auto). assert (B : nth_error ch j = Some (NT K' dd)) by (apply O'; auto).
  assert (i <> j) by (intros ->; congruence).
  assert (i < List.length ch) by (apply nth_error_Some; congruence). assert (j < List.length ch) by (apply nth_error_Some; congruence).
  split; [apply Nat.ltb_lt; lia | apply Nat.eqb_neq; lia].
Qed.
Lemma only_at K ch i cc : only K ch i cc -> nth_error ch i = Some (NT K cc).
Proof. intro O. apply O. auto. Qed.
Lemma se_conv (p : list nat) c : wordlike T_SE c -> exists r x n, word_of T_SE c r x /\ recover_se_conv (p, c) = Ok n /\
  In (text_of x, n) [("se", 2); ("te", 3); ("ve", 4); ("xe", 5)].
Proof.
  intro Wd. destruct (strip_word _ _ Wd) as (r & x & W1 & X & _ & SA); [intro H; discriminate H |].
  destruct (se_text x X) as [C (n & I)]. specialize (SA _ C).
  unfold recover_se_conv, cmavo_for. cbn [snd]. rewrite SA. cbn [obind].
  assert (D : exists c0 q, dat x = N_CMAVO T_SE c0 q).
  { unfold cmtest in C. destruct (dat x); try discriminate C. apply tok_eqb_eq in C. subst. eauto. }
  destruct D as (c0 & q & D). rewrite D. change (tok_eqb T_SE T_SE) with true. cbn iota. cbn [obind].
  assert (K : text_of x = "se" \/ text_of x = "te" \/ text_of x = "ve" \/ text_of x = "xe").
  { clear - I. unfold se_words in I. cbn [In] in I. repeat (destruct I as [I|I]; [pose proof (f_equal fst I) as J; cbn [fst] in J; auto |]). destruct I. }
  exists r, x. assert (WO : word_of T_SE c r x) by (split; assumption).
  destruct K as [K|[K|[K|K]]]; rewrite K; cbn [String.eqb Ascii.eqb Bool.eqb]; eexists; (split; [exact WO |]); (split; [reflexivity |]); cbn [In]; auto.
Qed.

Section HEADS.
  Variable T : tree.
  Hypothesis PT : parsed T.
  Hypothesis CT : is_nt "CHUNKS" T = true.
  Notation W := (W T).
  Notation right := (right T).

  Definition via (p : path) (a : args) (e : effect) (ch : list tree) (K : string) : Prop :=
    exists i cc, nth_error ch i = Some (NT K cc) /\ W (p ++ [i]) a e.
  Lemma W_via p a e k ch : subtree T p = Some (NT k ch) -> plain k = true -> k <> "TANRU_UNIT_2" ->
    (W p a e <-> Exists (via p a e ch) (sons heads k)).
  Proof.
    intros E PL NT2. rewrite (W_plain T _ _ _ _ _ E PL NT2). rewrite Exists_exists. unfold via. split.
    - intros (i & k' & cc & N & I & Q). eauto 6.
    - intros (k' & I & i & cc & N & Q). eauto 6.
  Qed.
  Lemma via_only p a e K ch i cc : only K ch i cc -> (via p a e ch K <-> W (p ++ [i]) a e).
  Proof.
    intro O. unfold via. split.
    - intros (j & dd & N & Q). apply O in N. destruct N as [-> _]. exact Q.
    - intro Q. exists i, cc. split; [apply O; auto | exact Q].
  Qed.
  Lemma via_none p a e K ch : (forall j cc, nth_error ch j <> Some (NT K cc)) -> ~ via p a e ch K.
  Proof. intros NO (j & dd & N & _). exact (NO _ _ N). Qed.

  Lemma child_sits (p : list nat) k ch i K cc : sits T (p, NT k ch) -> only K ch i cc -> sits T (p ++ [i], NT K cc).
  Proof. intros SI O. eapply sits_child; [exact SI | apply O; auto]. Qed.
  Lemma here_parsed (p : list nat) k ch : sits T (p, NT k ch) -> k <> "AUGMENTED" -> parsed (NT k ch).
  Proof. intros SI A. eapply sits_parsed; eauto. Qed.

  Definition co (f : nat) : Prop :=
    forall (p : list nat) ch post lc es, sits T (p, NT "SELBRI_2" ch) -> co_args f (p, NT "SELBRI_2" ch) post lc = Ok es ->
      forall e, In e es <-> exists i cc, (nth_error ch i = Some (NT "SELBRI_2" cc) \/ ch = [NT "SELBRI_3" cc] /\ i = 0) /\ W (p ++ [i]) ([], post, lc) e.
  Definition all (f : nat) : Prop :=
    right (tu2_args f) "TANRU_UNIT_2" /\ right (tu1_args f) "TANRU_UNIT_1" /\ right (selbri_6_args f) "SELBRI_6" /\
    right (selbri_5_args f) "SELBRI_5" /\ right (selbri_4_loop f) "SELBRI_4" /\ right (selbri_3_args f) "SELBRI_3" /\
    right (selbri_args f) "SELBRI" /\ co f.

  (* shapes *)
  Definition counts (l : list (string * nat)) (ss : list sym) : bool := forallb (fun e => Nat.eqb (count (fst e) ss) (snd e)) l.
  Lemma counts_in l ss : counts l ss = true -> forall K n, In (K, n) l -> count K ss = n.
  Proof. unfold counts. rewrite forallb_forall. intros C K n I. apply Nat.eqb_eq. exact (C _ I). Qed.
  Ltac of_count C := apply (counts_in _ _ C); cbn [In]; auto 10.

  Lemma se_shape : forallb (fun ss => match ss with ST T_SE :: _ => Nat.eqb (count "TANRU_UNIT_2" ss) 1 | _ => false end) (alternatives "SE_TU2") = true.
  Proof. vm_compute. reflexivity. Qed.
  Lemma jai_shape : forallb (counts [("TANRU_UNIT_2", 1)]) (alternatives "JAI_TU2") = true.
  Proof. vm_compute. reflexivity. Qed.
  Lemma jai_tag_shape : forallb (counts [("TANRU_UNIT_2", 1); ("TAG", 1)]) (alternatives "JAI_TAG_TU2") = true.
  Proof. vm_compute. reflexivity. Qed.
  Lemma nahe_shape : forallb (counts [("TANRU_UNIT_2", 1)]) (alternatives "NAHE_TU2") = true.
  Proof. vm_compute. reflexivity. Qed.
  Lemma ke_tu2_shape : forallb (counts [("SELBRI_3", 1)]) (alternatives "KE_SELBRI3_TU2") = true.
  Proof. vm_compute. reflexivity. Qed.

  Lemma tu2_ok f : all f -> right (tu2_args (S f)) "TANRU_UNIT_2".
  Proof.
    intros (H2 & _ & _ & _ & _ & H3 & _) p ch pre post lc es SI R e.
    pose proof (here_parsed _ _ _ SI ltac:(naug)) as PC.
    destruct (alt _ _ _ PC ltac:(naug) tu2_shape) as (ss & F & SH).
    destruct ss as [|[k|t|t] l]; try discriminate SH; [| eapply tu2_word_ok; eassumption].
    destruct l as [|s' l]; [| discriminate SH]. destruct (fits1 _ _ F) as (cc & ->). clear F.
    assert (E : subtree T p = Some (NT "TANRU_UNIT_2" [NT k cc])) by exact SI.
    assert (SK : sits T (p ++ [0], NT k cc)) by (eapply sits_child; [exact SI | reflexivity]).
    apply has_In in SH. unfold tu2_kinds in SH. cbn [In] in SH.
    destruct SH as [<-|[<-|[<-|[<-|[<-|[<-|[<-|[]]]]]]]].
    - rewrite tu2_nt in R by naug. cbn zeta in R. cbn [String.eqb Ascii.eqb Bool.eqb] in R.
      rewrite (W_tu2_down T _ _ _ _ _ E ltac:(naug)) by (cbn; auto).
      destruct (alt _ _ _ (here_parsed _ _ _ SK ltac:(naug)) ltac:(naug) ke_tu2_shape) as (ss & F & C).
      destruct (find_one "SELBRI_3" ss (p ++ [0]) "KE_SELBRI3_TU2" cc ltac:(naug) F ltac:(of_count C)) as (i & dd & FO & O). rewrite FO in R. cbn [obind asserted] in R.
      rewrite (W_one T _ _ _ _ _ _ _ _ SK eq_refl ltac:(naug) eq_refl O). eapply H3; [eapply child_sits; eassumption | exact R].
    - eapply tu2_moi_ok; eassumption.
    - rewrite tu2_nt in R by naug. cbn zeta in R. cbn [String.eqb Ascii.eqb Bool.eqb] in R.
      rewrite (W_tu2_down T _ _ _ _ _ E ltac:(naug)) by (cbn; auto).
      destruct (alt _ _ _ (here_parsed _ _ _ SK ltac:(naug)) ltac:(naug) se_shape) as (ss & F & C).
      destruct ss as [|[k|t|t] l]; try discriminate C. destruct t; try discriminate C. apply Nat.eqb_eq in C.
      destruct (find_one "TANRU_UNIT_2" _ (p ++ [0]) "SE_TU2" cc ltac:(naug) F C) as (i & dd & FO & O). 
      destruct (fitsx_cons_word _ _ _ F) as (c & rest & -> & Wd & _).
      destruct (se_conv ((p ++ [0]) ++ [0]) _ Wd) as (r & x & n & WX & RE & IN).
      change (child_ref (p ++ [0], NT "SE_TU2" (c :: rest)) 0) with (Ok (A := here) ((p ++ [0]) ++ [0], c)) in R. cbn [obind] in R.
      rewrite FO in R. cbn [obind asserted fst] in R. rewrite RE in R. cbn [obind] in R. oinv R. apply append_inv in E0. subst a.
      rewrite (W_se T _ _ _ _ _ _ _ _ _ _ _ _ SK WX IN O). eapply H2; [eapply child_sits; eassumption | exact R].
    - rewrite tu2_nt in R by naug. cbn zeta in R. cbn [String.eqb Ascii.eqb Bool.eqb] in R.
      rewrite (W_tu2_down T _ _ _ _ _ E ltac:(naug)) by (cbn; auto 8).
      destruct (alt _ _ _ (here_parsed _ _ _ SK ltac:(naug)) ltac:(naug) jai_tag_shape) as (ss & F & C).
      destruct (find_one "TANRU_UNIT_2" ss (p ++ [0]) "JAI_TAG_TU2" cc ltac:(naug) F ltac:(of_count C)) as (i & dd & FO & O).
      destruct (find_one "TAG" ss (p ++ [0]) "JAI_TAG_TU2" cc ltac:(naug) F ltac:(of_count C)) as (j & ee & FT & OT).
      rewrite FT in R. cbn [obind] in R. rewrite FO in R. cbn [obind asserted fst] in R. oinv R. apply append_inv in E0. subst a. oinv R. injection R as <-.
      rewrite (W_jai_tag T _ _ _ _ _ _ _ _ _ _ SK O OT). cbn [In]. rewrite (H2 _ _ _ _ _ _ (child_sits _ _ _ _ _ _ SK O) E0 e).
      assert (SY : Brackets ((p ++ [0]) ++ [i]) = e <-> e = Brackets ((p ++ [0]) ++ [i])) by (split; auto). tauto.
    - rewrite tu2_nt in R by naug. cbn zeta in R. cbn [String.eqb Ascii.eqb Bool.eqb] in R.
      rewrite (W_tu2_down T _ _ _ _ _ E ltac:(naug)) by (cbn; auto 8).
      destruct (alt _ _ _ (here_parsed _ _ _ SK ltac:(naug)) ltac:(naug) jai_shape) as (ss & F & C).
      destruct (find_one "TANRU_UNIT_2" ss (p ++ [0]) "JAI_TU2" cc ltac:(naug) F ltac:(of_count C)) as (i & dd & FO & O).
      rewrite FO in R. cbn [obind asserted fst] in R. oinv R. apply append_inv in E0. subst a.
      rewrite (W_jai T _ _ _ _ _ _ _ _ SK O). eapply H2; [eapply child_sits; eassumption | exact R].
    - rewrite tu2_nt in R by naug. cbn zeta in R. cbn [String.eqb Ascii.eqb Bool.eqb] in R.
      rewrite (W_tu2_down T _ _ _ _ _ E ltac:(naug)) by (cbn; auto 8).
      destruct (alt _ _ _ (here_parsed _ _ _ SK ltac:(naug)) ltac:(naug) nahe_shape) as (ss & F & C).
      destruct (find_one "TANRU_UNIT_2" ss (p ++ [0]) "NAHE_TU2" cc ltac:(naug) F ltac:(of_count C)) as (i & dd & FO & O).
      rewrite FO in R. cbn [obind asserted fst] in R.
      rewrite (W_one T _ _ _ _ _ _ _ _ SK eq_refl ltac:(naug) eq_refl O). eapply H2; [eapply child_sits; eassumption | exact R].
    - eapply tu2_nu_ok; eassumption.
  Qed.

  Lemma tu1_ok f : all f -> right (tu1_args (S f)) "TANRU_UNIT_1".
  Proof.
    intros (H2 & _) p ch pre post lc es SI R e. pose proof (here_parsed _ _ _ SI ltac:(naug)) as PC.
    destruct (tu1_inv _ PC) as (cc & [->|(dd & ->)]).
    - rewrite (W_tu1_bare T _ _ _ _ SI).
      change (tu1_args (S f) (p, NT "TANRU_UNIT_1" [NT "TANRU_UNIT_2" cc]) pre post lc) with
        (do a <- tu2_args f (p ++ [0], NT "TANRU_UNIT_2" cc) pre post lc; Ok (a ++ [Done p])) in R.
      oinv R. injection R as <-. rewrite in_app_iff. cbn [In]. rewrite (H2 _ _ _ _ _ _ (sits_child _ _ _ _ 0 _ SI eq_refl) E e).
      assert (SY : Done p = e <-> e = Done p) by (split; auto). tauto.
    - rewrite (W_tu1_linked T _ _ _ _ _ _ _ SI). destruct (links_of_spec p _ _ PC) as [LS _]. cbn zeta in LS.
      change (tu1_args (S f) (p, NT "TANRU_UNIT_1" [NT "TANRU_UNIT_2" cc; NT "LINKARGS" dd]) pre post lc) with
        (do v <- links_of (p, NT "TANRU_UNIT_1" [NT "TANRU_UNIT_2" cc; NT "LINKARGS" dd]);
         do a <- match v with
              | Some v => do lc <- append lc (LC_LINKS v) []; tu2_args f (p ++ [0], NT "TANRU_UNIT_2" cc) pre post lc
              | None => tu2_args f (p ++ [0], NT "TANRU_UNIT_2" cc) pre post lc
              end;
         Ok (a ++ [Done p])) in R.
      rewrite LS in R. destruct (small _); [| discriminate R]. cbn [obind] in R. oinv R. injection R as <-. oinv E. apply append_inv in E0. subst a0.
      rewrite in_app_iff. cbn [In]. rewrite (H2 _ _ _ _ _ _ (sits_child _ _ _ _ 0 _ SI eq_refl) E e).
      assert (SY : Done p = e <-> e = Done p) by (split; auto). tauto.
  Qed.

  Lemma tu_shape : forallb (fun ss => match ss with [SN k] => String.eqb k "TANRU_UNIT_1" | SN _ :: ST _ :: _ => true | _ => false end) (alternatives "TANRU_UNIT") = true.
  Proof. vm_compute. reflexivity. Qed.
  Lemma s6_shape : forallb (fun ss => match ss with [SN k] => String.eqb k "TANRU_UNIT" | _ => if counts [("TANRU_UNIT", 1); ("SELBRI_6", 1); ("SELBRI", 0)] ss then true else counts [("TANRU_UNIT", 0); ("SELBRI_6", 1); ("SELBRI", 1)] ss end) (alternatives "SELBRI_6") = true.
  Proof. vm_compute. reflexivity. Qed.
  Lemma s6_ok f : all f -> right (selbri_6_args (S f)) "SELBRI_6".
  Proof.
    intros (_ & H1 & H6 & _ & _ & _ & HS & _) p ch pre post lc es SI R e. pose proof (here_parsed _ _ _ SI ltac:(naug)) as PC.
    rewrite (W_s6 T _ _ _ _ SI).
    change (selbri_6_args (S f) (p, NT "SELBRI_6" ch) pre post lc) with
      (if Nat.eqb (List.length ch) 1 then
        do tu <- child_ref (p, NT "SELBRI_6" ch) 0;
        do n <- nch tu;
        if Nat.ltb 1 n then Ok []
        else do tu1 <- child_ref tu 0; tu1_args f tu1 pre post lc
      else
        do tu <- find_child (p, NT "SELBRI_6" ch) 1 "TANRU_UNIT";
        match tu with
        | Some _ => do c <- find_child (p, NT "SELBRI_6" ch) 1 "SELBRI_6"; do c <- deref c; selbri_6_args f c pre post lc
        | None =>
            do s <- find_child (p, NT "SELBRI_6" ch) 1 "SELBRI";
            do c <- find_child (p, NT "SELBRI_6" ch) 1 "SELBRI_6";
            do s <- deref s; do a <- selbri_args f s pre post lc;
            do c <- deref c; do b <- selbri_6_args f c pre post lc;
            Ok (a ++ b)
        end) in R.
    destruct (alt _ _ _ PC ltac:(naug) s6_shape) as (ss & F & SH).
    assert (SHP : ss = [SN "TANRU_UNIT"] \/ counts [("TANRU_UNIT", 1); ("SELBRI_6", 1); ("SELBRI", 0)] ss = true \/ counts [("TANRU_UNIT", 0); ("SELBRI_6", 1); ("SELBRI", 1)] ss = true).
    { destruct ss as [|[k|t|t] [|s' l]]; [| apply String.eqb_eq in SH; subst k; auto | ..];
        right; match type of SH with (if ?b then _ else _) = _ => destruct b; [left; reflexivity | right; exact SH] end. }
    clear SH. destruct SHP as [->|[C|C]].
    - destruct (fits1 _ _ F) as (cc & ->). cbn [List.length Nat.eqb] in R.
      assert (ST : sits T (p ++ [0], NT "TANRU_UNIT" cc)) by (eapply sits_child; [exact SI | reflexivity]).
      change (child_ref (p, NT "SELBRI_6" [NT "TANRU_UNIT" cc]) 0) with (Ok (A := here) (p ++ [0], NT "TANRU_UNIT" cc)) in R. cbn [obind nch snd] in R.
      transitivity (W (p ++ [0]) (pre, post, lc) e).
      2: { split; [intro Q; left; eauto |]. intros [(c' & _ & Q)|(i & k' & c' & N & I & _)]; [exact Q |].
           destruct i as [|[|i]]; try discriminate N. injection N as <- _. destruct I as [I|[I|[]]]; discriminate I. }
      rewrite (W_tu T _ _ _ _ ST). destruct (alt _ _ _ (here_parsed _ _ _ ST ltac:(naug)) ltac:(naug) tu_shape) as (ss & F' & SH).
      destruct ss as [|[k|t|t] [|[k'|t'|t'] l]]; try discriminate SH.
      + apply String.eqb_eq in SH. subst k. destruct (fits1 _ _ F') as (dd & ->). cbn [List.length Nat.ltb Nat.leb] in R.
        change (child_ref (p ++ [0], NT "TANRU_UNIT" [NT "TANRU_UNIT_1" dd]) 0) with (Ok (A := here) ((p ++ [0]) ++ [0], NT "TANRU_UNIT_1" dd)) in R. cbn [obind] in R.
        rewrite (H1 _ _ _ _ _ _ (sits_child _ _ _ _ 0 _ ST eq_refl) R e). split; [intro Q; exists dd; auto | intros (c' & _ & Q); exact Q].
      + pose proof (several _ _ _ _ F') as L. replace (Nat.ltb 1 (List.length cc)) with true in R by (symmetry; apply Nat.ltb_lt; lia).
        injection R as <-. split; [intros [] |]. intros (c' & -> & _). cbn [List.length] in L. lia.
    - destruct (find_one "TANRU_UNIT" ss p "SELBRI_6" ch ltac:(naug) F ltac:(of_count C)) as (i & cc & F1 & O1).
      destruct (find_one "SELBRI_6" ss p "SELBRI_6" ch ltac:(naug) F ltac:(of_count C)) as (j & dd & F2 & O2).
      destruct (find_no "SELBRI" ss p "SELBRI_6" ch ltac:(naug) F ltac:(of_count C)) as (_ & NO).
      assert (KD : "TANRU_UNIT" <> "SELBRI_6") by discriminate. destruct (only_two _ _ _ _ _ _ _ KD O1 O2) as [_ L]. rewrite L in R. rewrite F1 in R. cbn [obind] in R.
      rewrite F2 in R. cbn [obind deref] in R. rewrite (H6 _ _ _ _ _ _ (child_sits _ _ _ _ _ _ SI O2) R e). split.
      + intro Q. right. exists j, "SELBRI_6", dd. split; [apply only_at; exact O2 |]. split; [left; reflexivity | exact Q].
      + intros [(c' & -> & _)|(i' & k' & c' & N & I & Q)]; [discriminate L |].
        destruct I as [<-|[<-|[]]]; [apply O2 in N; destruct N as [-> _]; exact Q | destruct (NO _ _ N)].
    - destruct (find_no "TANRU_UNIT" ss p "SELBRI_6" ch ltac:(naug) F ltac:(of_count C)) as (F0 & NO).
      destruct (find_one "SELBRI" ss p "SELBRI_6" ch ltac:(naug) F ltac:(of_count C)) as (i & cc & F1 & O1).
      destruct (find_one "SELBRI_6" ss p "SELBRI_6" ch ltac:(naug) F ltac:(of_count C)) as (j & dd & F2 & O2).
      assert (KD : "SELBRI" <> "SELBRI_6") by discriminate. destruct (only_two _ _ _ _ _ _ _ KD O1 O2) as [_ L]. rewrite L in R. rewrite F0 in R. cbn [obind] in R.
      rewrite F1 in R. cbn [obind] in R. rewrite F2 in R. cbn [obind deref] in R. oinv R. oinv R. injection R as <-.
      rewrite in_app_iff, (HS _ _ _ _ _ _ (child_sits _ _ _ _ _ _ SI O1) E e), (H6 _ _ _ _ _ _ (child_sits _ _ _ _ _ _ SI O2) E0 e). split.
      + intros [Q|Q]; right; [exists i, "SELBRI", cc | exists j, "SELBRI_6", dd]; (split; [apply only_at; assumption |]); (split; [| exact Q]); cbn [In]; auto.
      + intros [(c' & -> & _)|(i' & k' & c' & N & I & Q)]; [discriminate L |].
        destruct I as [<-|[<-|[]]]; [apply O2 in N; destruct N as [-> _]; right; exact Q | apply O1 in N; destruct N as [-> _]; left; exact Q].
  Qed.

  Definition either (A B : list (string * nat)) (ss : list sym) : bool := if counts A ss then true else counts B ss.
  Lemma either_inv A B ss : either A B ss = true -> counts A ss = true \/ counts B ss = true.
  Proof. unfold either. destruct (counts A ss); auto. Qed.

  Lemma s5_shape : forallb (either [("SELBRI_6", 1); ("SELBRI_5", 0)] [("SELBRI_6", 1); ("SELBRI_5", 1)]) (alternatives "SELBRI_5") = true.
  Proof. vm_compute. reflexivity. Qed.
  Lemma s5_ok f : all f -> right (selbri_5_args (S f)) "SELBRI_5".
  Proof.
    intros (_ & _ & H6 & H5 & _) p ch pre post lc es SI R e. pose proof (here_parsed _ _ _ SI ltac:(naug)) as PC.
    rewrite (W_via _ _ _ _ _ SI eq_refl ltac:(naug)). change (sons heads "SELBRI_5") with ["SELBRI_5"; "SELBRI_6"]. rewrite !Exists_cons, Exists_nil.
    change (selbri_5_args (S f) (p, NT "SELBRI_5" ch) pre post lc) with
      (do s6 <- find_child (p, NT "SELBRI_5" ch) 1 "SELBRI_6"; do s6 <- deref s6;
       do a <- selbri_6_args f s6 pre post lc;
       do c <- find_child (p, NT "SELBRI_5" ch) 1 "SELBRI_5";
       match c with None => Ok a | Some c => do b <- selbri_5_args f c pre post lc; Ok (a ++ b) end) in R.
    destruct (alt _ _ _ PC ltac:(naug) s5_shape) as (ss & F & SH). apply either_inv in SH. destruct SH as [C|C].
    - destruct (find_one "SELBRI_6" ss p "SELBRI_5" ch ltac:(naug) F ltac:(of_count C)) as (i & cc & F1 & O1).
      destruct (find_no "SELBRI_5" ss p "SELBRI_5" ch ltac:(naug) F ltac:(of_count C)) as (F0 & NO).
      rewrite F1 in R. cbn [obind deref] in R. oinv R. rewrite F0 in R. cbn [obind] in R. injection R as <-.
      rewrite (H6 _ _ _ _ _ _ (child_sits _ _ _ _ _ _ SI O1) E e), (via_only _ _ _ _ _ _ _ O1). pose proof (via_none p (pre, post, lc) e _ _ NO). tauto.
    - destruct (find_one "SELBRI_6" ss p "SELBRI_5" ch ltac:(naug) F ltac:(of_count C)) as (i & cc & F1 & O1).
      destruct (find_one "SELBRI_5" ss p "SELBRI_5" ch ltac:(naug) F ltac:(of_count C)) as (j & dd & F2 & O2).
      rewrite F1 in R. cbn [obind deref] in R. oinv R. rewrite F2 in R. cbn [obind] in R. oinv R. injection R as <-.
      rewrite in_app_iff, (H6 _ _ _ _ _ _ (child_sits _ _ _ _ _ _ SI O1) E e), (H5 _ _ _ _ _ _ (child_sits _ _ _ _ _ _ SI O2) E0 e), (via_only _ _ _ _ _ _ _ O1), (via_only _ _ _ _ _ _ _ O2). tauto.
  Qed.

  Lemma s4_shape : forallb (fun ss => either [("SELBRI_5", 1); ("SELBRI_4", 0); ("KE_SELBRI_3", 0)] [("SELBRI_5", 1); ("SELBRI_4", 1); ("KE_SELBRI_3", 0)] ss ||
    counts [("SELBRI_5", 0); ("SELBRI_4", 1); ("KE_SELBRI_3", 1)] ss) (alternatives "SELBRI_4") = true.
  Proof. vm_compute. reflexivity. Qed.
  Lemma ke_shape : forallb (counts [("SELBRI_3", 1)]) (alternatives "KE_SELBRI_3") = true.
  Proof. vm_compute. reflexivity. Qed.
  Lemma s4_ok f : all f -> right (selbri_4_loop (S f)) "SELBRI_4".
  Proof.
    intros (_ & _ & _ & H5 & H4 & H3 & _) p ch pre post lc es SI R e. pose proof (here_parsed _ _ _ SI ltac:(naug)) as PC.
    rewrite (W_via _ _ _ _ _ SI eq_refl ltac:(naug)). change (sons heads "SELBRI_4") with ["SELBRI_4"; "SELBRI_5"; "KE_SELBRI_3"]. rewrite !Exists_cons, Exists_nil.
    change (selbri_4_loop (S f) (p, NT "SELBRI_4" ch) pre post lc) with
     (do s5 <- find_child (p, NT "SELBRI_4" ch) 1 "SELBRI_5";
      do a <- match s5 with
              | Some s5 => selbri_5_args f s5 pre post lc
              | None =>
                  do k <- find_child (p, NT "SELBRI_4" ch) 1 "KE_SELBRI_3"; do k <- asserted k;
                  do s3 <- find_child k 1 "SELBRI_3"; do s3 <- asserted s3; selbri_3_args f s3 pre post lc
              end;
      do c <- find_child (p, NT "SELBRI_4" ch) 1 "SELBRI_4";
      match c with None => Ok a | Some c => do b <- selbri_4_loop f c pre post lc; Ok (a ++ b) end) in R.
    destruct (alt _ _ _ PC ltac:(naug) s4_shape) as (ss & F & SH). apply orb_true_iff in SH. destruct SH as [SH|C]; [apply either_inv in SH; destruct SH as [C|C] |].
    - destruct (find_one "SELBRI_5" ss p "SELBRI_4" ch ltac:(naug) F ltac:(of_count C)) as (i & cc & F1 & O1).
      destruct (find_no "SELBRI_4" ss p "SELBRI_4" ch ltac:(naug) F ltac:(of_count C)) as (F0 & NO).
      destruct (find_no "KE_SELBRI_3" ss p "SELBRI_4" ch ltac:(naug) F ltac:(of_count C)) as (_ & NO2).
      rewrite F1 in R. cbn [obind] in R. oinv R. rewrite F0 in R. cbn [obind] in R. injection R as <-.
      rewrite (H5 _ _ _ _ _ _ (child_sits _ _ _ _ _ _ SI O1) E e), (via_only _ _ _ _ _ _ _ O1). pose proof (via_none p (pre, post, lc) e _ _ NO).
      pose proof (via_none p (pre, post, lc) e _ _ NO2). tauto.
    - destruct (find_one "SELBRI_5" ss p "SELBRI_4" ch ltac:(naug) F ltac:(of_count C)) as (i & cc & F1 & O1).
      destruct (find_one "SELBRI_4" ss p "SELBRI_4" ch ltac:(naug) F ltac:(of_count C)) as (j & dd & F2 & O2).
      destruct (find_no "KE_SELBRI_3" ss p "SELBRI_4" ch ltac:(naug) F ltac:(of_count C)) as (_ & NO2).
      rewrite F1 in R. cbn [obind] in R. oinv R. rewrite F2 in R. cbn [obind] in R. oinv R. injection R as <-.
      rewrite in_app_iff, (H5 _ _ _ _ _ _ (child_sits _ _ _ _ _ _ SI O1) E e), (H4 _ _ _ _ _ _ (child_sits _ _ _ _ _ _ SI O2) E0 e), (via_only _ _ _ _ _ _ _ O1), (via_only _ _ _ _ _ _ _ O2).
      pose proof (via_none p (pre, post, lc) e _ _ NO2). tauto.
    - destruct (find_no "SELBRI_5" ss p "SELBRI_4" ch ltac:(naug) F ltac:(of_count C)) as (F0 & NO).
      destruct (find_one "SELBRI_4" ss p "SELBRI_4" ch ltac:(naug) F ltac:(of_count C)) as (j & dd & F2 & O2).
      destruct (find_one "KE_SELBRI_3" ss p "SELBRI_4" ch ltac:(naug) F ltac:(of_count C)) as (i & cc & F1 & O1).
      rewrite F0 in R. cbn [obind] in R. oinv R. rewrite F1 in E. cbn [obind asserted] in E.
      pose proof (child_sits _ _ _ _ _ _ SI O1) as SK. destruct (alt _ _ _ (here_parsed _ _ _ SK ltac:(naug)) ltac:(naug) ke_shape) as (ss' & F' & C').
      destruct (find_one "SELBRI_3" ss' (p ++ [i]) "KE_SELBRI_3" cc ltac:(naug) F' ltac:(of_count C')) as (u & ee & F3 & O3). rewrite F3 in E. cbn [obind asserted] in E.
      rewrite F2 in R. cbn [obind] in R. oinv R. injection R as <-.
      rewrite in_app_iff, (H3 _ _ _ _ _ _ (child_sits _ _ _ _ _ _ SK O3) E e), (H4 _ _ _ _ _ _ (child_sits _ _ _ _ _ _ SI O2) E0 e), (via_only _ _ _ _ _ _ _ O1), (via_only _ _ _ _ _ _ _ O2).
      rewrite (W_one T _ _ _ _ _ _ _ _ SK eq_refl ltac:(naug) eq_refl O3).
      pose proof (via_none p (pre, post, lc) e _ _ NO). tauto.
  Qed.

  Lemma s3_shape : forallb (counts [("SELBRI_4", 1)]) (alternatives "SELBRI_3") = true.
  Proof. vm_compute. reflexivity. Qed.
  Lemma s4_one_shape : forallb (fun ss => match ss with [SN k] => String.eqb k "SELBRI_5" | _ => Nat.eqb (count "SELBRI_4" ss) 1 && (Nat.eqb (count "SELBRI_5" ss + count "KE_SELBRI_3" ss) 1) end) (alternatives "SELBRI_4") = true.
  Proof. vm_compute. reflexivity. Qed.
  Lemma s4_one ch : parsed (NT "SELBRI_4" ch) -> (exists cc, ch = [NT "SELBRI_5" cc]) \/ Nat.ltb 1 (List.length ch) = true.
  Proof.
    intro PC. destruct (alt _ _ _ PC ltac:(naug) s4_one_shape) as (ss & F & SH).
    assert (Q : ss = [SN "SELBRI_5"] \/ count "SELBRI_4" ss = 1 /\ (count "SELBRI_5" ss = 1 \/ count "KE_SELBRI_3" ss = 1)).
    { destruct ss as [|[k|t|t] [|s' l]]; [| apply String.eqb_eq in SH; subst k; auto | ..]; right; apply andb_true_iff in SH; destruct SH as [S1 S2];
        apply Nat.eqb_eq in S1, S2; split; [exact S1 | lia | exact S1 | lia | exact S1 | lia | exact S1 | lia | exact S1 | lia | exact S1 | lia]. }
    destruct Q as [->|[C4 Q]]; [left; apply fits1; exact F |]. right.
    destruct (find_one "SELBRI_4" ss [] "SELBRI_4" ch ltac:(naug) F C4) as (j & dd & _ & O2).
    destruct Q as [C|C].
    - destruct (find_one "SELBRI_5" ss [] "SELBRI_4" ch ltac:(naug) F C) as (i & cc & _ & O1).
      assert (KD : "SELBRI_5" <> "SELBRI_4") by discriminate. apply (only_two _ _ _ _ _ _ _ KD O1 O2).
    - destruct (find_one "KE_SELBRI_3" ss [] "SELBRI_4" ch ltac:(naug) F C) as (i & cc & _ & O1).
      assert (KD : "KE_SELBRI_3" <> "SELBRI_4") by discriminate. apply (only_two _ _ _ _ _ _ _ KD O1 O2).
  Qed.
  Lemma s3_ok f : all f -> right (selbri_3_args (S f)) "SELBRI_3".
  Proof.
    intros (_ & _ & _ & H5 & H4 & H3 & _) p ch pre post lc es SI R e. pose proof (here_parsed _ _ _ SI ltac:(naug)) as PC.
    change (selbri_3_args (S f) (p, NT "SELBRI_3" ch) pre post lc) with
     (do s4 <- find_child (p, NT "SELBRI_3" ch) 1 "SELBRI_4"; do s4 <- deref s4;
      do n <- nch s4;
      if Nat.ltb 1 n then selbri_4_loop f s4 pre post lc
      else do s5 <- find_child s4 1 "SELBRI_5"; do s5 <- deref s5; selbri_5_args f s5 pre post lc) in R.
    destruct (alt _ _ _ PC ltac:(naug) s3_shape) as (ss & F & C).
    destruct (find_one "SELBRI_4" ss p "SELBRI_3" ch ltac:(naug) F ltac:(of_count C)) as (i & cc & F1 & O1).
    rewrite F1 in R. cbn [obind deref nch snd] in R. pose proof (child_sits _ _ _ _ _ _ SI O1) as S4.
    rewrite (W_one T _ _ _ _ _ _ _ _ SI eq_refl ltac:(naug) eq_refl O1).
    destruct (s4_one _ (here_parsed _ _ _ S4 ltac:(naug))) as [(dd & ->)|L].
    - change (find_child (p ++ [i], NT "SELBRI_4" [NT "SELBRI_5" dd]) 1 "SELBRI_5") with (Ok (A := option here) (Some ((p ++ [i]) ++ [0], NT "SELBRI_5" dd))) in R.
      cbn [List.length Nat.ltb Nat.leb obind deref] in R. rewrite (H5 _ _ _ _ _ _ (sits_child _ _ _ _ 0 _ S4 eq_refl) R e).
      rewrite (W_via _ _ _ _ _ S4 eq_refl ltac:(naug)). change (sons heads "SELBRI_4") with ["SELBRI_4"; "SELBRI_5"; "KE_SELBRI_3"]. rewrite !Exists_cons, Exists_nil. split.
      + intro Q. right. left. exists 0, dd. split; [reflexivity | exact Q].
      + intros [(u & c' & N & Q)|[(u & c' & N & Q)|[(u & c' & N & Q)|[]]]]; destruct u as [|[|u]]; try discriminate N. exact Q.
    - rewrite L in R. apply (H4 _ _ _ _ _ _ S4 R e).
  Qed.

  Lemma selbri_shape : forallb (counts [("SELBRI_1", 1)]) (alternatives "SELBRI") = true.
  Proof. vm_compute. reflexivity. Qed.
  Lemma s1_shape : forallb (either [("SELBRI_2", 1); ("SELBRI", 0)] [("SELBRI_2", 0); ("SELBRI", 1)]) (alternatives "SELBRI_1") = true.
  Proof. vm_compute. reflexivity. Qed.
  Lemma s2_shape : forallb (fun ss => match ss with [SN k] => String.eqb k "SELBRI_3" | SN k :: ss => String.eqb k "SELBRI_3" && counts [("SELBRI_3", 0); ("SELBRI_2", 1)] ss | _ => false end) (alternatives "SELBRI_2") = true.
  Proof. vm_compute. reflexivity. Qed.
  Lemma s2_inv ch : parsed (NT "SELBRI_2" ch) -> (exists cc, ch = [NT "SELBRI_3" cc]) \/
    exists cc rest j dd, ch = NT "SELBRI_3" cc :: rest /\ only "SELBRI_3" ch 0 cc /\ only "SELBRI_2" ch j dd /\ Nat.ltb 1 (List.length ch) = true /\
      forall (p : list nat), find_child (p, NT "SELBRI_2" ch) 1 "SELBRI_2" = Ok (Some (p ++ [j], NT "SELBRI_2" dd)).
  Proof.
    intro PC. destruct (alt _ _ _ PC ltac:(naug) s2_shape) as (ss & F & SH).
    assert (Q : ss = [SN "SELBRI_3"] \/ exists l, ss = SN "SELBRI_3" :: l /\ counts [("SELBRI_3", 0); ("SELBRI_2", 1)] l = true).
    { destruct ss as [|[k|t|t] [|s' l]]; try discriminate SH; [apply String.eqb_eq in SH; subst k; auto |]. right. apply andb_true_iff in SH. destruct SH as [S1 S2].
      apply String.eqb_eq in S1. subst k. eauto. }
    destruct Q as [->|(l & -> & C)]; [left; apply fits1; exact F |]. right. inversion F as [|ty ss0 cc rest F'| | |]; subst.
    assert (C3 : count "SELBRI_3" (SN "SELBRI_3" :: l) = 1) by (cbn [count is_SN]; rewrite (counts_in _ _ C "SELBRI_3" 0) by (cbn [In]; auto); reflexivity).
    assert (C2 : count "SELBRI_2" (SN "SELBRI_3" :: l) = 1) by (cbn [count is_SN]; rewrite (counts_in _ _ C "SELBRI_2" 1) by (cbn [In]; auto); reflexivity).
    destruct (find_one "SELBRI_3" _ [] "SELBRI_2" _ ltac:(naug) F C3) as (i & cc' & _ & O1). destruct (find_one "SELBRI_2" _ [] "SELBRI_2" _ ltac:(naug) F C2) as (j & dd & _ & O2).
    assert (I0 : 0 = i /\ cc = cc') by (apply O1; reflexivity). destruct I0 as [<- <-].
    exists cc, rest, j, dd. split; [reflexivity |]. split; [exact O1 |]. split; [exact O2 |].
    assert (KD : "SELBRI_3" <> "SELBRI_2") by discriminate. split; [apply (only_two _ _ _ _ _ _ _ KD O1 O2) |].
    intro p. destruct (find_one "SELBRI_2" _ p "SELBRI_2" _ ltac:(naug) F C2) as (j' & dd' & FO & O2'). rewrite FO.
    assert (X : j' = j /\ dd' = dd) by (apply O2; apply only_at; exact O2'). destruct X as [-> ->]. reflexivity.
  Qed.

  Lemma selbri_ok f : all f -> right (selbri_args (S f)) "SELBRI".
  Proof.
    intros (_ & _ & _ & _ & _ & H3 & HS & HC) p ch pre post lc es SI R e. pose proof (here_parsed _ _ _ SI ltac:(naug)) as PC.
    change (selbri_args (S f) (p, NT "SELBRI" ch) pre post lc) with
     (do s1 <- find_child (p, NT "SELBRI" ch) 1 "SELBRI_1"; do s1 <- deref s1;
      do s2 <- find_child s1 1 "SELBRI_2";
      match s2 with
      | None => do c <- find_child s1 1 "SELBRI"; do c <- asserted c; selbri_args f c pre post lc
      | Some s2 =>
          do s3 <- child_ref s2 0;
          do n <- nch s2;
          if Nat.ltb 1 n then
            do a <- selbri_3_args f s3 pre [] lc;
            do b <- co_args f s2 post lc;
            Ok (a ++ b)
          else selbri_3_args f s3 pre post lc
      end) in R.
    destruct (alt _ _ _ PC ltac:(naug) selbri_shape) as (ss & F & C).
    destruct (find_one "SELBRI_1" ss p "SELBRI" ch ltac:(naug) F ltac:(of_count C)) as (i & cc & F1 & O1).
    rewrite F1 in R. cbn [obind deref] in R. pose proof (child_sits _ _ _ _ _ _ SI O1) as S1.
    rewrite (W_one T _ _ _ _ _ _ _ _ SI eq_refl ltac:(naug) eq_refl O1).
    rewrite (W_via _ _ _ _ _ S1 eq_refl ltac:(naug)). change (sons heads "SELBRI_1") with ["SELBRI_2"; "SELBRI"]. rewrite !Exists_cons, Exists_nil.
    destruct (alt _ _ _ (here_parsed _ _ _ S1 ltac:(naug)) ltac:(naug) s1_shape) as (ss' & F' & SH). apply either_inv in SH. clear C. destruct SH as [C|C].
    - destruct (find_one "SELBRI_2" ss' (p ++ [i]) "SELBRI_1" cc ltac:(naug) F' ltac:(of_count C)) as (j & dd & F2 & O2).
      destruct (find_no "SELBRI" ss' (p ++ [i]) "SELBRI_1" cc ltac:(naug) F' ltac:(of_count C)) as (_ & NO).
      rewrite F2 in R. cbn [obind] in R. pose proof (child_sits _ _ _ _ _ _ S1 O2) as S2. rewrite (via_only _ _ _ _ _ _ _ O2).
      pose proof (via_none (p ++ [i]) (pre, post, lc) e _ _ NO) as VN.
      assert (TOP : forall q n, (p ++ [i]) ++ [j] = q ++ [n] -> ~ kid T q "SELBRI_2" n "SELBRI_2").
      { intros q n EQ (c1 & c2 & E1 & _). apply app_inj_tail in EQ. destruct EQ as [<- <-]. unfold sits in S1. cbn [fst snd] in S1. rewrite S1 in E1. discriminate E1. }
      destruct (s2_inv _ (here_parsed _ _ _ S2 ltac:(naug))) as [(ee & ->)|(ee & rest & u & gg & -> & O3 & O4 & L & FC)].
      + change (child_ref ((p ++ [i]) ++ [j], NT "SELBRI_2" [NT "SELBRI_3" ee]) 0) with (Ok (A := here) (((p ++ [i]) ++ [j]) ++ [0], NT "SELBRI_3" ee)) in R.
        cbn [obind nch snd List.length Nat.ltb Nat.leb] in R. rewrite (H3 _ _ _ _ _ _ (sits_child _ _ _ _ 0 _ S2 eq_refl) R e).
        rewrite (W_s2_one T _ _ _ _ S2). tauto.
      + change (child_ref ((p ++ [i]) ++ [j], NT "SELBRI_2" (NT "SELBRI_3" ee :: rest)) 0) with (Ok (A := here) (((p ++ [i]) ++ [j]) ++ [0], NT "SELBRI_3" ee)) in R.
        cbn [obind nch snd] in R. rewrite L in R. oinv R. oinv R. injection R as <-.
        rewrite in_app_iff, (H3 _ _ _ _ _ _ (sits_child _ _ _ _ 0 _ S2 eq_refl) E e), (HC _ _ _ _ _ S2 E0 e).
        rewrite (W_s2_co T _ _ _ _ _ _ _ _ _ _ S2 O3 O4).
        assert (Q : (exists i0 cc0, (nth_error (NT "SELBRI_3" ee :: rest) i0 = Some (NT "SELBRI_2" cc0) \/ NT "SELBRI_3" ee :: rest = [NT "SELBRI_3" cc0] /\ i0 = 0) /\
            W (((p ++ [i]) ++ [j]) ++ [i0]) ([], post, lc) e) <-> W (((p ++ [i]) ++ [j]) ++ [u]) ([], post, lc) e).
        { split.
          - intros (i0 & cc0 & [N|[X _]] & Q); [apply O4 in N; destruct N as [-> _]; exact Q |]. rewrite X in L. discriminate L.
          - intro Q. exists u, gg. split; [left; apply only_at; exact O4 | exact Q]. }
        tauto.
    - destruct (find_no "SELBRI_2" ss' (p ++ [i]) "SELBRI_1" cc ltac:(naug) F' ltac:(of_count C)) as (F0 & NO).
      destruct (find_one "SELBRI" ss' (p ++ [i]) "SELBRI_1" cc ltac:(naug) F' ltac:(of_count C)) as (j & dd & F2 & O2).
      rewrite F0 in R. cbn [obind] in R. rewrite F2 in R. cbn [obind asserted] in R.
      rewrite (HS _ _ _ _ _ _ (child_sits _ _ _ _ _ _ S1 O2) R e). rewrite (via_only _ _ _ _ _ _ _ O2).
      pose proof (via_none (p ++ [i]) (pre, post, lc) e _ _ NO) as VN. tauto.
  Qed.

  Lemma co_ok f : all f -> co (S f).
  Proof.
    intros (_ & _ & _ & _ & _ & H3 & _ & HC) p ch post lc es SI R e. pose proof (here_parsed _ _ _ SI ltac:(naug)) as PC.
    change (co_args (S f) (p, NT "SELBRI_2" ch) post lc) with
      (if Nat.ltb 1 (List.length ch) then do c <- find_child (p, NT "SELBRI_2" ch) 1 "SELBRI_2"; do c <- deref c; co_args f c post lc
       else do s3 <- child_ref (p, NT "SELBRI_2" ch) 0; selbri_3_args f s3 [] post lc) in R.
    destruct (s2_inv _ PC) as [(ee & ->)|(ee & rest & u & gg & -> & O3 & O4 & L & FC)].
    - cbn [List.length Nat.ltb Nat.leb] in R. change (child_ref (p, NT "SELBRI_2" [NT "SELBRI_3" ee]) 0) with (Ok (A := here) (p ++ [0], NT "SELBRI_3" ee)) in R. cbn [obind] in R.
      rewrite (H3 _ _ _ _ _ _ (sits_child _ _ _ _ 0 _ SI eq_refl) R e). split.
      + intro Q. exists 0, ee. auto.
      + intros (i & cc & [N|[_ ->]] & Q); [destruct i as [|[|i]]; discriminate N | exact Q].
    - rewrite L, FC in R. cbn [obind deref] in R. pose proof (child_sits _ _ _ _ _ _ SI O4) as S2.
      transitivity (W (p ++ [u]) ([], post, lc) e).
      2: { split.
           - intro Q. exists u, gg. split; [left; apply only_at; exact O4 | exact Q].
           - intros (i0 & cc0 & [N|[X _]] & Q); [apply O4 in N; destruct N as [-> _]; exact Q |]. rewrite X in L. discriminate L. }
      rewrite (HC _ _ _ _ _ S2 R e). destruct (s2_inv _ (here_parsed _ _ _ S2 ltac:(naug))) as [(e2 & ->)|(e2 & rest2 & u2 & g2 & -> & O5 & O6 & L2 & _)].
      + rewrite (W_s2_one T _ _ _ _ S2). split.
        * intros (i0 & cc0 & [N|[_ ->]] & Q); [destruct i0 as [|[|i0]]; discriminate N | exact Q].
        * intro Q. exists 0, e2. auto.
      + rewrite (W_s2_co T _ _ _ _ _ _ _ _ _ _ S2 O5 O6). split.
        * intros (i0 & cc0 & [N|[X _]] & Q); [apply O6 in N; destruct N as [-> _]; right; exact Q |]. rewrite X in L2. discriminate L2.
        * intros [[NP _]|Q]; [| exists u2, g2; split; [left; apply only_at; exact O6 | exact Q]]. exfalso. apply (NP p u eq_refl).
          eexists _, _. split; [exact SI | apply only_at; exact O4].
  Qed.

  Theorem all_ok f : all f.
  Proof.
    induction f as [|f IH].
    - unfold all, right, co. repeat split; try (intros; discriminate); match goal with H : _ = Ok _ |- _ => discriminate H end.
    - split; [apply tu2_ok; exact IH |]. split; [apply tu1_ok; exact IH |]. split; [apply s6_ok; exact IH |]. split; [apply s5_ok; exact IH |].
      split; [apply s4_ok; exact IH |]. split; [apply s3_ok; exact IH |]. split; [apply selbri_ok; exact IH | apply co_ok; exact IH].
  Qed.
End HEADS.
