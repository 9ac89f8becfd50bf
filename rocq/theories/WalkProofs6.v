(* The walk of terms.c: where it begins, and the linked terms left over. *)
From Coq Require Import String List NArith ZArith Bool Arith Lia Sorted.
From Verif Require Import Base TokData CmavoData TokModel StreamModel TreeModel TreeOutModel GrammarData GramModel GramSpec GramProofs PassProofs2
  ConvSpec ConvProofs2 ErasureProofs TermsModel TermsSpec WalkModel WalkSpec WalkProofs WalkProofs2 WalkProofs3 WalkProofs4 WalkProofs5.
From Verif Require OutModel PassModel.
Import ListNotations.
Open Scope string_scope.
Open Scope list_scope.

Fixpoint musts (ss : list sym) : nat := match ss with [] => 0 | SE _ :: ss => musts ss | _ :: ss => S (musts ss) end.
Lemma musts_length ss ch : fitsx ss ch -> musts ss <= List.length ch.
Proof. induction 1; cbn [musts List.length]; lia. Qed.

Definition ways : list string :=
  ["SENTENCE"; "NO_CU_SENTENCE"; "OBSERVATIVE_SENTENCE"; "SUBSENTENCE"; "GEK_SENTENCE";
   "BRIDI_TAIL"; "BRIDI_TAIL_1"; "BRIDI_TAIL_2"; "BRIDI_TAIL_3"; "MAIN_SELBRI"].
Definition roots : list string := ["STATEMENT_3"; "ABSTRACTION"; "FULL_RELATIVE_CLAUSE"].
Lemma way_parents k ty : In k ways -> In k (kids ty) -> In ty (ways ++ roots).
Proof.
  intros I. unfold ways in I. repeat (destruct I as [<-|I]; [eapply kids_parents; vm_compute; reflexivity |]). destruct I.
Qed.

Lemma scan_at f x : forall (p : list nat) es, scan f p x = Ok es -> forall (r : list nat) k ch, subtree x r = Some (NT k ch) -> exists es', f (p ++ r, NT k ch) = Ok es'.
Proof.
  induction x as [n|k ch IH] using tree_ind2; intros p es R r k' ch' E.
  - destruct r; discriminate E.
  - change (scan f p (NT k ch)) with (do a <- f (p, NT k ch); do b <- go_scan f p 0 ch; Ok (a ++ b)) in R. oinv R. oinv R.
    destruct r as [|j r]; [injection E as <- <-; rewrite app_nil_r; eauto |]. cbn [subtree] in E. destruct (nth_error ch j) as [c|] eqn:N; [| discriminate E].
    assert (G : forall l i b, go_scan f p i l = Ok b -> forall j c, nth_error l j = Some c -> exists es', scan f (p ++ [i + j]) c = Ok es').
    { clear. induction l as [|c l IHl]; intros i b GB j c' N; [destruct j; discriminate N |].
      change (go_scan f p i (c :: l)) with (do a <- scan f (p ++ [i]) c; do b <- go_scan f p (S i) l; Ok (a ++ b)) in GB. oinv GB. oinv GB.
      destruct j as [|j]; [injection N as <-; rewrite Nat.add_0_r; eauto |]. replace (i + S j) with (S i + j) by lia. eapply IHl; eassumption. }
    destruct (G _ _ _ E1 _ _ N) as (es' & ES). rewrite Forall_forall in IH. cbn [Nat.add] in ES.
    destruct (IH c (nth_error_In _ _ N) _ _ ES _ _ _ E) as (es2 & E2). rewrite <- app_assoc in E2. eauto.
Qed.

Section ROOTS.
  Variable T : tree.
  Hypothesis PT : parsed T.
  Hypothesis CT : is_nt "CHUNKS" T = true.
  Notation W := (W T).
  Notation X := (X T).
  Notation leads := (leads T).
  Notation node_parsed := (here_parsed T PT CT).

  Lemma climb p : forall m k ch, leads p m -> subtree T p = Some (NT k ch) -> In k ways ->
    exists q j kr rch c, subtree T q = Some (NT kr rch) /\ In kr roots /\ nth_error rch j = Some c /\ leads (q ++ [j]) m.
  Proof.
    induction p as [|i p IH] using rev_ind; intros m k ch L E I.
    - cbn [subtree] in E. destruct T as [x|top tch]; [discriminate E |]. injection E as -> ->. apply String.eqb_eq in CT. subst k.
      exfalso. clear - I. unfold ways in I. cbn [In] in I. repeat (destruct I as [I|I]; [discriminate I |]). exact I.
    - assert (A : k <> "AUGMENTED") by (intros ->; clear - I; unfold ways in I; cbn [In] in I; repeat (destruct I as [I|I]; [discriminate I |]); exact I).
      destruct (parent_of T p i k ch PT CT E A) as (ty & pch & E1 & N & _ & _ & K). pose proof (way_parents _ _ I K) as J. apply in_app_iff in J.
      destruct J as [J|J].
      + eapply IH; [| exact E1 | exact J]. eapply l_step; [exact E1 | | exact N | exact L].
        assert (NM : ty <> "MAIN_SELBRI").
        { intros ->. assert (FX : forallb (fun k' => negb (has k' ways)) (kids "MAIN_SELBRI") = true) by (vm_compute; reflexivity).
          rewrite forallb_forall in FX. specialize (FX _ K). apply negb_true_iff in FX. apply has_In in I. congruence. }
        clear - J NM. unfold ways in J. cbn [In] in J. repeat (destruct J as [<-|J]; [reflexivity || congruence |]). destruct J.
      + exists p, i, ty, pch, (NT k ch). auto.
  Qed.

  (* the effects below a root *)
  Definition rooted (p : path) (ch : list tree) (e : effect) : Prop := exists i c, nth_error ch i = Some c /\ X (p ++ [i]) e.
  Lemma rooted_only (p : list nat) k ch K i cc e : sits T (p, NT k ch) -> k <> "AUGMENTED" -> forallb (fun k' => if on_way k' then String.eqb k' K else true) (kids k) = true ->
    only K ch i cc -> (rooted p ch e <-> X (p ++ [i]) e).
  Proof.
    intros SI A C O. split.
    - intros (j & c & N & m & L & Q). assert (SC : subtree T (p ++ [j]) = Some c) by (eapply sits_child; eassumption).
      pose proof (leads_kind _ _ _ _ L SC) as OW. destruct c as [x|k' c']; [discriminate OW |]. cbn [kind] in OW.
      assert (A' : k' <> "AUGMENTED") by (intros ->; discriminate OW).
      destruct (parent_of T p j k' c' PT CT SC A') as (ty & ch' & E2 & _ & _ & _ & KI). unfold sits in SI. cbn [fst snd] in SI. rewrite SI in E2. injection E2 as <- <-.
      rewrite forallb_forall in C. specialize (C _ KI). cbn beta in C. rewrite OW in C. apply String.eqb_eq in C. subst k'. apply O in N. destruct N as [-> _].
      exists m. auto.
    - intro Q. exists i, (NT K cc). split; [apply O; auto | exact Q].
  Qed.
  Lemma rooted_none (p : list nat) k ch K e : sits T (p, NT k ch) -> k <> "AUGMENTED" -> forallb (fun k' => if on_way k' then String.eqb k' K else true) (kids k) = true ->
    (forall j cc, nth_error ch j <> Some (NT K cc)) -> ~ rooted p ch e.
  Proof.
    intros SI A C O (j & c & N & m & L & Q). assert (SC : subtree T (p ++ [j]) = Some c) by (eapply sits_child; eassumption).
    pose proof (leads_kind _ _ _ _ L SC) as OW. destruct c as [x|k' c']; [discriminate OW |]. cbn [kind] in OW.
    assert (A' : k' <> "AUGMENTED") by (intros ->; discriminate OW).
    destruct (parent_of T p j k' c' PT CT SC A') as (ty & ch' & E2 & _ & _ & _ & KI). unfold sits in SI. cbn [fst snd] in SI. rewrite SI in E2. injection E2 as <- <-.
    rewrite forallb_forall in C. specialize (C _ KI). cbn beta in C. rewrite OW in C. apply String.eqb_eq in C. subst k'. exact (O _ _ N).
  Qed.

  Lemma st3_shape : forallb (fun ss => match ss with [SN k] => String.eqb k "SENTENCE" | _ => if Nat.eqb (count "SENTENCE" ss) 0 then Nat.leb 2 (musts ss) else false end) (alternatives "STATEMENT_3") = true.
  Proof. vm_compute. reflexivity. Qed.
  Lemma statement_ok (p : list nat) ch es : sits T (p, NT "STATEMENT_3" ch) -> statement_3 (p, NT "STATEMENT_3" ch) = Ok es -> forall e, In e es <-> rooted p ch e.
  Proof.
    intros SI R e. pose proof (node_parsed _ _ _ SI ltac:(naug)) as PC. destruct (alt _ _ _ PC ltac:(naug) st3_shape) as (ss & F & SH).
    assert (Q : ss = [SN "SENTENCE"] \/ count "SENTENCE" ss = 0 /\ 2 <= musts ss).
    { destruct ss as [|[k|t|t] [|s' l]]; try (right; match type of SH with (if Nat.eqb ?a 0 then _ else _) = true => destruct (Nat.eqb_spec a 0) end; [split; [assumption | apply Nat.leb_le; exact SH] | discriminate SH]).
      cbn beta iota in SH. left. apply String.eqb_eq in SH. subst k. reflexivity. }
    destruct Q as [->|[C0 L]].
    - destruct (fits1 _ _ F) as (cc & ->).
      change (statement_3 (p, NT "STATEMENT_3" [NT "SENTENCE" cc])) with
       (let b := sentence_body (p ++ [0], NT "SENTENCE" cc) in
        do terms <- find_child b 1 "TERMS";
        do bt <- find_child b 1 "BRIDI_TAIL"; do bt <- asserted bt;
        do pre <- match terms with Some t => tv_build t | None => Ok [] end;
        bridi_tail (depth bt) bt pre []) in R. cbn zeta in R.
      pose proof (sits_child _ _ _ _ 0 _ SI eq_refl) as SC.
      rewrite (rooted_only p "STATEMENT_3" _ "SENTENCE" 0 cc e SI ltac:(naug)) by (vm_compute; reflexivity || apply single_only).
      destruct (before_top T p "STATEMENT_3" _ 0 SI eq_refl) as [BT AT].
      destruct (sentence_spec T PT CT (p ++ [0]) cc e SC) as (q & dd & F1 & S1 & _ & XB & AB & TB). rewrite XB. rewrite AT in AB. rewrite BT in TB.
      destruct TB as [[FT EB]|(t & FT & NTT & PTT & EB)]; rewrite FT in R; cbn [obind] in R; rewrite F1 in R; cbn [obind asserted] in R.
      + assert (R' : bridi_tail (depth (q, NT "BRIDI_TAIL" dd)) (q, NT "BRIDI_TAIL" dd) (before T q) (after T q) = Ok es) by (rewrite EB, AB; exact R).
        destruct (ball_ok T PT CT (depth (q, NT "BRIDI_TAIL" dd))) as (_ & _ & _ & _ & _ & HB). apply (HB _ _ _ S1 R' e).
      + destruct (tv_build_spec t NTT PTT) as [TS _]. cbn zeta in TS. rewrite TS in R. destruct (small _); [| discriminate R]. cbn [obind] in R. cbn [app] in EB.
        assert (R' : bridi_tail (depth (q, NT "BRIDI_TAIL" dd)) (q, NT "BRIDI_TAIL" dd) (before T q) (after T q) = Ok es) by (rewrite EB, AB; exact R).
        destruct (ball_ok T PT CT (depth (q, NT "BRIDI_TAIL" dd))) as (_ & _ & _ & _ & _ & HB). apply (HB _ _ _ S1 R' e).
    - pose proof (rooted_none p "STATEMENT_3" ch "SENTENCE" e SI ltac:(naug)) as NO.
      destruct (find_no "SENTENCE" ss p "STATEMENT_3" ch ltac:(naug) F C0) as (_ & N0).
      assert (NR : ~ rooted p ch e) by (apply NO; [vm_compute; reflexivity | exact N0]).
      unfold statement_3, nch in R. cbn [snd obind] in R.
      destruct (Nat.eqb_spec (List.length ch) 1) as [L1|]; [| injection R as <-; split; [intros [] | intro Q; contradiction]].
      pose proof (musts_length _ _ F). lia.
  Qed.

  Lemma abs_shape : forallb (fun ss => match ss with SN _ :: SN k :: ss => if String.eqb k "SUBSENTENCE" then Nat.eqb (count "SUBSENTENCE" ss) 0 else false | _ => false end) (alternatives "ABSTRACTION") = true.
  Proof. vm_compute. reflexivity. Qed.
  Lemma full_shape : forallb (fun ss => Nat.eqb (count "SUBSENTENCE" ss) 1) (alternatives "FULL_RELATIVE_CLAUSE") = true.
  Proof. vm_compute. reflexivity. Qed.
  Lemma clause_shape : forallb (fun ss => match ss with [SN k] => has k ["FULL_RELATIVE_CLAUSE"; "TERM_RELATIVE_CLAUSE"] | _ => false end) (alternatives "RELATIVE_CLAUSE") = true.
  Proof. vm_compute. reflexivity. Qed.
  Lemma meta_shape : forallb (fun ss => if Nat.eqb (count "METALINGUISTIC_MAIN_SELBRI" ss) 1 then if Nat.leb (count "TERMS" ss) 1 then Nat.eqb (count "TAIL_TERMS" ss) 0 else false else false) (alternatives "METALINGUISTIC") = true.
  Proof. vm_compute. reflexivity. Qed.
  Lemma mm_shape : forallb (fun ss => match ss with [SN k] => String.eqb k "SELBRI" | _ => false end) (alternatives "METALINGUISTIC_MAIN_SELBRI") = true.
  Proof. vm_compute. reflexivity. Qed.

  Lemma sub_root (q : list nat) k ch i cc es : sits T (q, NT k ch) -> bridi_part k = false -> nth_error ch i = Some (NT "SUBSENTENCE" cc) ->
    subsentence (depth (q ++ [i], NT "SUBSENTENCE" cc)) (q ++ [i], NT "SUBSENTENCE" cc) [] [] = Ok es -> forall e, In e es <-> X (q ++ [i]) e.
  Proof.
    intros SI B N R e. destruct (before_top T q k ch i SI B) as [BT AT]. pose proof (sits_child _ _ _ _ i _ SI N) as SC.
    assert (R' : subsentence (depth (q ++ [i], NT "SUBSENTENCE" cc)) (q ++ [i], NT "SUBSENTENCE" cc) (before T (q ++ [i])) (after T (q ++ [i])) = Ok es) by (rewrite BT, AT; exact R).
    destruct (ball_ok T PT CT (depth (q ++ [i], NT "SUBSENTENCE" cc))) as (HB & _). apply (HB _ _ _ SC R' e).
  Qed.
  Lemma abstraction_ok (p : list nat) ch es : sits T (p, NT "ABSTRACTION" ch) -> abstraction (p, NT "ABSTRACTION" ch) = Ok es -> forall e, In e es <-> rooted p ch e.
  Proof.
    intros SI R e. pose proof (node_parsed _ _ _ SI ltac:(naug)) as PC. destruct (alt _ _ _ PC ltac:(naug) abs_shape) as (ss & F & SH).
    destruct ss as [|[k|t|t] [|[k'|t'|t'] l]]; try discriminate SH. destruct (String.eqb_spec k' "SUBSENTENCE") as [->|]; [| discriminate SH]. apply Nat.eqb_eq in SH.
    inversion F as [|ty ss0 c0 cs F'| | |]; subst. inversion F' as [|ty ss0 c1 cs' F''| | |]; subst.
    assert (NK : k <> "SUBSENTENCE").
    { intros ->. assert (G : forallb (fun ss => match ss with SN k :: _ => String.eqb k "NU_NAI_SEQ" | _ => false end) (alternatives "ABSTRACTION") = true) by (vm_compute; reflexivity).
      destruct (alt _ _ _ PC ltac:(naug) G) as (ss2 & F2 & SH2). destruct ss2 as [|[k2|t2|t2] l2]; try discriminate SH2. apply String.eqb_eq in SH2. subst k2.
      inversion F2. }
    destruct (find_no "SUBSENTENCE" l p "ABSTRACTION" cs' ltac:(naug) F'' SH) as (_ & NO).
    assert (O : only "SUBSENTENCE" (NT k c0 :: NT "SUBSENTENCE" c1 :: cs') 1 c1).
    { intros j c'. split; [| intros [-> ->]; reflexivity]. intro N. destruct j as [|[|j]]; cbn [nth_error] in N.
      - injection N as N _. congruence.
      - injection N as ->. auto.
      - destruct (NO _ _ N). }
    rewrite (rooted_only p "ABSTRACTION" _ "SUBSENTENCE" 1 c1 e SI ltac:(naug)) by (vm_compute; reflexivity || exact O).
    change (abstraction (p, NT "ABSTRACTION" (NT k c0 :: NT "SUBSENTENCE" c1 :: cs'))) with
      (subsentence (depth (p ++ [1], NT "SUBSENTENCE" c1)) (p ++ [1], NT "SUBSENTENCE" c1) [] []) in R.
    exact (sub_root p "ABSTRACTION" _ 1 c1 es SI eq_refl eq_refl R e).
  Qed.
  Lemma clause_ok (p : list nat) ch es : sits T (p, NT "RELATIVE_CLAUSE" ch) -> relative_clause (p, NT "RELATIVE_CLAUSE" ch) = Ok es ->
    forall e, In e es <-> exists cc, ch = [NT "FULL_RELATIVE_CLAUSE" cc] /\ rooted (p ++ [0]) cc e.
  Proof.
    intros SI R e. pose proof (node_parsed _ _ _ SI ltac:(naug)) as PC. destruct (alt _ _ _ PC ltac:(naug) clause_shape) as (ss & F & SH).
    destruct ss as [|[k|t|t] [|s' l]]; try discriminate SH. destruct (fits1 _ _ F) as (cc & ->). pose proof (sits_child _ _ _ _ 0 _ SI eq_refl) as SC.
    apply has_In in SH. destruct SH as [<-|[<-|[]]].
    - change (relative_clause (p, NT "RELATIVE_CLAUSE" [NT "FULL_RELATIVE_CLAUSE" cc])) with
        (do ss <- find_child (p ++ [0], NT "FULL_RELATIVE_CLAUSE" cc) 1 "SUBSENTENCE"; match ss with Some ss => subsentence (depth ss) ss [] [] | None => Ok [] end) in R.
      destruct (alt _ _ _ (node_parsed _ _ _ SC ltac:(naug)) ltac:(naug) full_shape) as (ss & F' & C). apply Nat.eqb_eq in C.
      destruct (find_one "SUBSENTENCE" ss (p ++ [0]) "FULL_RELATIVE_CLAUSE" cc ltac:(naug) F' C) as (i & dd & FO & O). rewrite FO in R. cbn [obind] in R.
      rewrite (sub_root (p ++ [0]) "FULL_RELATIVE_CLAUSE" cc i dd es SC eq_refl (only_at _ _ _ _ O) R e).
      rewrite <- (rooted_only (p ++ [0]) "FULL_RELATIVE_CLAUSE" _ "SUBSENTENCE" i dd e SC ltac:(naug)) by (vm_compute; reflexivity || exact O).
      split; [intro Q; exists cc; auto |]. intros (c' & E & Q). injection E as <-. exact Q.
    - change (relative_clause (p, NT "RELATIVE_CLAUSE" [NT "TERM_RELATIVE_CLAUSE" cc])) with (Ok (A := list effect) []) in R. injection R as <-.
      split; [intros [] |]. intros (c' & E & _). discriminate E.
  Qed.
  Lemma meta_ok (p : list nat) ch es : sits T (p, NT "METALINGUISTIC" ch) -> metalinguistic (p, NT "METALINGUISTIC" ch) = Ok es ->
    forall e, In e es <-> exists i cc, nth_error ch i = Some (NT "METALINGUISTIC_MAIN_SELBRI" cc) /\ W ((p ++ [i]) ++ [0]) (before T (p ++ [i]), after T (p ++ [i]), []) e.
  Proof.
    intros SI R e. pose proof (node_parsed _ _ _ SI ltac:(naug)) as PC. destruct (alt _ _ _ PC ltac:(naug) meta_shape) as (ss & F & SH).
    destruct (Nat.eqb_spec (count "METALINGUISTIC_MAIN_SELBRI" ss) 1) as [C1|]; [| discriminate SH]. destruct (Nat.leb_spec (count "TERMS" ss) 1) as [C2|]; [| discriminate SH].
    apply Nat.eqb_eq in SH.
    destruct (find_one "METALINGUISTIC_MAIN_SELBRI" ss p "METALINGUISTIC" ch ltac:(naug) F C1) as (i & cc & FO & O).
    destruct (find_no "TAIL_TERMS" ss p "METALINGUISTIC" ch ltac:(naug) F SH) as (_ & NT0).
    pose proof (sits_child _ _ _ _ i _ SI (only_at _ _ _ _ O)) as SM.
    destruct (alt _ _ _ (node_parsed _ _ _ SM ltac:(naug)) ltac:(naug) mm_shape) as (ss' & F' & SH').
    destruct ss' as [|[k|t|t] [|s' l]]; try discriminate SH'. apply String.eqb_eq in SH'. subst k. destruct (fits1 _ _ F') as (dd & ->).
    pose proof (sits_child _ _ _ _ 0 _ SM eq_refl) as SS.
    (* nothing above *)
    assert (TOP : before T p = [] /\ after T p = []).
    { destruct p as [|j p'] using rev_ind; [split; reflexivity |]. clear IHp'. unfold sits in SI. cbn [fst snd] in SI.
      destruct (parent_of T p' j "METALINGUISTIC" ch PT CT SI ltac:(naug)) as (ty & pch & E1 & _ & _ & _ & K).
      assert (TY : In ty ["FREE"]) by (revert K; apply kids_parents; vm_compute; reflexivity). destruct TY as [<-|[]]. exact (before_top T p' "FREE" pch j E1 eq_refl). }
    destruct TOP as [TB TA].
    pose proof (before_kid T p "METALINGUISTIC" ch i SI eq_refl) as BK. pose proof (after_kid T p "METALINGUISTIC" ch i SI eq_refl) as AK.
    rewrite TB in BK. rewrite TA in AK. rewrite (kid_terms_none "TAIL_TERMS" p ch) in AK by (discriminate || assumption). cbn [sorts flat_map app] in AK, BK.
    assert (Q : exists pre, selbri_terms ((p ++ [i]) ++ [0], NT "SELBRI" dd) pre [] = Ok es /\ pre = before T (p ++ [i])).
    { unfold metalinguistic in R. rewrite FO in R. cbn [obind asserted] in R.
      change (child_ref (p ++ [i], NT "METALINGUISTIC_MAIN_SELBRI" [NT "SELBRI" dd]) 0) with (Ok (A := here) ((p ++ [i]) ++ [0], NT "SELBRI" dd)) in R. cbn [obind] in R.
      destruct (count "TERMS" ss) as [|[|n]] eqn:CE; [| | lia].
      - destruct (find_no "TERMS" ss p "METALINGUISTIC" ch ltac:(naug) F CE) as (FT & N). rewrite FT in R. cbn [obind] in R. exists []. split; [exact R |].
        rewrite BK, (kid_terms_none "TERMS" p ch) by (discriminate || assumption). reflexivity.
      - destruct (find_one "TERMS" ss p "METALINGUISTIC" ch ltac:(naug) F CE) as (j & tt & FT & OT). rewrite FT in R. cbn [obind] in R.
        assert (P1 : parsed (NT "TERMS" tt)) by (eapply parsed_children; [exact PC | naug | eapply nth_error_In; apply only_at; exact OT]).
        destruct (tv_build_spec (p ++ [j], NT "TERMS" tt) eq_refl P1) as [TS _]. cbn [fst snd] in TS. cbn zeta in TS. rewrite TS in R.
        destruct (small _); [| discriminate R]. cbn [obind] in R. eexists. split; [exact R |].
        rewrite BK, (kid_terms_at "TERMS" p ch ltac:(discriminate) j tt 0 OT). reflexivity. }
    destruct Q as (pre & R' & ->). unfold selbri_terms in R'.
    destruct (all_ok T PT CT (depth ((p ++ [i]) ++ [0], NT "SELBRI" dd))) as (_ & _ & _ & _ & _ & _ & HS & _).
    rewrite (HS _ _ _ _ _ _ SS R' e). split.
    - intro Q. exists i, [NT "SELBRI" dd]. split; [apply only_at; exact O |]. rewrite AK. exact Q.
    - intros (j & c' & N & Q). apply O in N. destruct N as [-> _]. rewrite AK in Q. exact Q.
  Qed.

  Definition begun (e : effect) : Prop := exists s a, begins T s a /\ W s a e.
  Definition from_bridi (e : effect) : Prop :=
    exists m k ch, subtree T m = Some (NT k ch) /\ among k ["MAIN_SELBRI"; "METALINGUISTIC_MAIN_SELBRI"] = true /\ W (m ++ [0]) (before T m, after T m, []) e.
  Lemma leads_main p m : leads p m -> exists ch, subtree T m = Some (NT "MAIN_SELBRI" ch).
  Proof. induction 1; eauto. Qed.
  Lemma rooted_from p ch e : rooted p ch e -> from_bridi e.
  Proof. intros (i & c & N & m & L & Q). destruct (leads_main _ _ L) as (mch & E). exists m, "MAIN_SELBRI", mch. auto. Qed.

  Lemma sp_kinds : forall k ch (p : list nat) es, sentence_parent (p, NT k ch) = Ok es ->
    (k = "STATEMENT_3" /\ statement_3 (p, NT k ch) = Ok es) \/ (k = "ABSTRACTION" /\ abstraction (p, NT k ch) = Ok es) \/
    (k = "RELATIVE_CLAUSE" /\ relative_clause (p, NT k ch) = Ok es) \/ (k = "METALINGUISTIC" /\ metalinguistic (p, NT k ch) = Ok es) \/ es = [].
  Proof.
    intros k ch p es R. unfold sentence_parent in R. cbn [snd is_nt] in R.
    destruct (String.eqb_spec k "STATEMENT_3"); [auto |]. destruct (String.eqb_spec k "ABSTRACTION"); [auto |].
    destruct (String.eqb_spec k "RELATIVE_CLAUSE"); [auto |]. destruct (String.eqb_spec k "METALINGUISTIC"); [auto 6 |]. injection R as <-. auto 6.
  Qed.
  Lemma scan1 es : scan sentence_parent [] T = Ok es -> forall e, In e es <-> from_bridi e.
  Proof.
    intros R e. rewrite (scan_in _ _ _ _ R e). split.
    - intros (r & k & ch & es' & E & R' & I). cbn [app] in R'. apply sp_kinds in R'.
      destruct R' as [[-> R']|[[-> R']|[[-> R']|[[-> R']| ->]]]].
      + apply (statement_ok _ _ _ E R') in I. eapply rooted_from; exact I.
      + apply (abstraction_ok _ _ _ E R') in I. eapply rooted_from; exact I.
      + apply (clause_ok _ _ _ E R') in I. destruct I as (cc & _ & I). eapply rooted_from; exact I.
      + apply (meta_ok _ _ _ E R') in I. destruct I as (i & cc & N & Q). exists (r ++ [i]), "METALINGUISTIC_MAIN_SELBRI", cc.
        split; [exact (sits_child _ _ _ _ _ _ E N) |]. auto.
      + destruct I.
    - intros (m & k & ch & E & A & Q).
      assert (AT : forall r k ch, subtree T r = Some (NT k ch) -> exists es', sentence_parent (r, NT k ch) = Ok es') by (intros r k' ch' E'; exact (scan_at _ _ _ _ R r _ _ E')).
      assert (KK : k = "MAIN_SELBRI" \/ k = "METALINGUISTIC_MAIN_SELBRI").
      { clear - A. unfold among in A. apply existsb_exists in A. destruct A as (y & I & B). apply String.eqb_eq in B. destruct I as [<-|[<-|[]]]; auto. }
      destruct KK as [->| ->].
      + destruct (climb m m "MAIN_SELBRI" ch (l_here _ _ _ E) E) as (q & j & kr & rch & c & E1 & I & N & L); [unfold ways; cbn [In]; auto 12 |].
        assert (RT : rooted q rch e) by (exists j, c; split; [exact N |]; exists m; auto).
        destruct I as [<-|[<-|[<-|[]]]].
        * destruct (AT _ _ _ E1) as (es' & R'). exists q, "STATEMENT_3", rch, es'. split; [exact E1 |]. split; [exact R' |]. apply (statement_ok _ _ _ E1 R'). exact RT.
        * destruct (AT _ _ _ E1) as (es' & R'). exists q, "ABSTRACTION", rch, es'. split; [exact E1 |]. split; [exact R' |]. apply (abstraction_ok _ _ _ E1 R'). exact RT.
        * destruct q as [|i q] using rev_ind; [|clear IHq].
          { exfalso. cbn [subtree] in E1. injection E1 as E1. clear - CT E1. subst T. discriminate CT. }
          destruct (parent_of T q i "FULL_RELATIVE_CLAUSE" rch PT CT E1 ltac:(naug)) as (ty & pch & E2 & N2 & _ & P2 & K).
          assert (TY : In ty ["RELATIVE_CLAUSE"]) by (revert K; apply kids_parents; vm_compute; reflexivity). destruct TY as [<-|[]].
          destruct (AT _ _ _ E2) as (es' & R'). exists q, "RELATIVE_CLAUSE", pch, es'. split; [exact E2 |]. split; [exact R' |]. apply (clause_ok _ _ _ E2 R').
          destruct (alt _ _ _ P2 ltac:(naug) clause_shape) as (ss & F & SH). destruct ss as [|[k|t|t] [|s' l]]; try discriminate SH. destruct (fits1 _ _ F) as (cc & ->).
          destruct i as [|[|i]]; try discriminate N2. injection N2 as -> ->. exists rch. auto.
      + destruct m as [|i q] using rev_ind; [|clear IHq].
        { exfalso. cbn [subtree] in E. injection E as E. clear - CT E. subst T. discriminate CT. }
        destruct (parent_of T q i "METALINGUISTIC_MAIN_SELBRI" ch PT CT E ltac:(naug)) as (ty & pch & E2 & N2 & _ & P2 & K).
        assert (TY : In ty ["METALINGUISTIC"]) by (revert K; apply kids_parents; vm_compute; reflexivity). destruct TY as [<-|[]].
        destruct (AT _ _ _ E2) as (es' & R'). exists q, "METALINGUISTIC", pch, es'. split; [exact E2 |]. split; [exact R' |]. apply (meta_ok _ _ _ E2 R'). eauto.
  Qed.

  Definition from_sumti (e : effect) : Prop := exists p k i, kid T p k i "SELBRI" /\ among k ["SUMTI_5B"; "SUMTI_TAIL_1A"] = true /\ W (p ++ [i]) nothing e.
  Lemma s5b_shape : forallb (fun ss => Nat.eqb (count "SELBRI" ss) 1) (alternatives "SUMTI_5B") = true.
  Proof. vm_compute. reflexivity. Qed.
  Lemma st1a_shape : forallb (fun ss => Nat.eqb (count "SELBRI" ss) 1) (alternatives "SUMTI_TAIL_1A") = true.
  Proof. vm_compute. reflexivity. Qed.
  Lemma scan2 es : scan selbri_in_sumti [] T = Ok es -> forall e, In e es <-> from_sumti e.
  Proof.
    intros R e. rewrite (scan_in _ _ _ _ R e).
    assert (KEY : forall (p : list nat) k ch es', subtree T p = Some (NT k ch) -> among k ["SUMTI_5B"; "SUMTI_TAIL_1A"] = true -> selbri_in_sumti (p, NT k ch) = Ok es' ->
      (In e es' <-> exists i, kid T p k i "SELBRI" /\ W (p ++ [i]) nothing e)).
    { intros p k ch es' E A R'.
      assert (KK : (k = "SUMTI_5B" \/ k = "SUMTI_TAIL_1A") /\ k <> "AUGMENTED").
      { clear - A. unfold among in A. apply existsb_exists in A. destruct A as (y & I & B). apply String.eqb_eq in B. destruct I as [<-|[<-|[]]]; subst k; split; auto; naug. }
      destruct KK as [KK NA]. pose proof (node_parsed p k ch E NA) as PC.
      assert (SS : exists ss, fitsx ss ch /\ count "SELBRI" ss = 1).
      { destruct KK as [->| ->]; [destruct (alt _ _ _ PC NA s5b_shape) as (ss & F & C) | destruct (alt _ _ _ PC NA st1a_shape) as (ss & F & C)]; apply Nat.eqb_eq in C; eauto. }
      destruct SS as (ss & F & C). destruct (find_one "SELBRI" ss p k ch ltac:(naug) F C) as (i & cc & FO & O).
      unfold selbri_in_sumti in R'. cbn [snd] in R'. replace (is_nt "SUMTI_5B" (NT k ch) || is_nt "SUMTI_TAIL_1A" (NT k ch)) with true in R' by (destruct KK as [->| ->]; reflexivity).
      rewrite FO in R'. cbn [obind asserted] in R'. unfold selbri_terms in R'.
      destruct (all_ok T PT CT (depth (p ++ [i], NT "SELBRI" cc))) as (_ & _ & _ & _ & _ & _ & HS & _).
      pose proof (sits_child _ _ _ _ i _ E (only_at _ _ _ _ O)) as SC. rewrite (HS _ _ _ _ _ _ SC R' e). split.
      - intro Q. exists i. split; [| exact Q]. exists ch, cc. split; [exact E | apply only_at; exact O].
      - intros (j & (ch' & c' & E' & N) & Q). rewrite E in E'. injection E' as <-. apply O in N. destruct N as [-> _]. exact Q. }
    split.
    - intros (r & k & ch & es' & E & R' & I). cbn [app] in R'.
      destruct (among k ["SUMTI_5B"; "SUMTI_TAIL_1A"]) eqn:A.
      + apply (KEY _ _ _ _ E A R') in I. destruct I as (i & K & Q). exists r, k, i. auto.
      + exfalso. unfold selbri_in_sumti in R'. cbn [snd is_nt] in R'. unfold among in A. cbn [existsb] in A.
        destruct (String.eqb k "SUMTI_5B"), (String.eqb k "SUMTI_TAIL_1A"); try discriminate A. injection R' as <-. destruct I.
    - intros (p & k & i & K & A & Q). pose proof K as (ch & cc & E & N). destruct (scan_at _ _ _ _ R p k ch E) as (es' & R'). cbn [app] in R'.
      exists p, k, ch, es'. split; [exact E |]. split; [exact R' |]. apply (KEY _ _ _ _ E A R'). eauto.
  Qed.
  Lemma begun_iff e : begun e <-> from_bridi e \/ from_sumti e.
  Proof.
    split.
    - intros (s & a & B & Q). destruct B as [p k ch E A|p k i K A]; [left; exists p, k, ch; auto | right; exists p, k, i; auto].
    - intros [(m & k & ch & E & A & Q)|(p & k & i & K & A & Q)]; eexists _, _; (split; [| exact Q]); [eapply b_bridi | eapply b_sumti]; eassumption.
  Qed.

  (* ---------- linked terms left over ---------- *)

  Lemma step_any p a i b : step T p a i b -> forall a', exists b', step T p a' i b'.
  Proof.
    intros S1 [[pre' post'] lc']. destruct S1; eexists.
    - eapply s_head; eassumption.
    - eapply s_alone; eassumption.
    - eapply s_co_first; eassumption.
    - eapply s_co_rest; eassumption.
    - eapply s_links; eassumption.
    - eapply s_se; eassumption.
    - eapply s_jai; eassumption.
    - eapply s_jai_tag; eassumption.
  Qed.
  Lemma down_any p a q b : down T p a q b -> forall a', exists b', down T p a' q b'.
  Proof.
    induction 1 as [|p a i b q c S1 D IH]; intro a'; [exists a'; constructor |]. destruct (step_any _ _ _ _ S1 a') as (b' & S2). destruct (IH b') as (c' & D2).
    exists c'. econstructor; eassumption.
  Qed.
  Lemma down_app p a q b r c : down T p a q b -> down T q b r c -> down T p a r c.
  Proof. induction 1; intro D; [exact D | econstructor; eauto]. Qed.
  Lemma down_below p a q b : down T p a q b -> exists r, q = p ++ r.
  Proof. induction 1 as [|p a i b q c S1 D (r & ->)]; [exists []; rewrite app_nil_r; reflexivity |]. exists (i :: r). rewrite <- app_assoc. reflexivity. Qed.
  Lemma places_no_done mk pre post lc es p : give_places pre post lc mk = Ok es -> ~ In (Done p) es.
  Proof.
    unfold give_places. intros R I. oinv R. injection R as <-. apply in_map_iff in I. destruct I as (f & Q & _). discriminate Q.
  Qed.
  Lemma silent_no_done lc p : ~ In (Done p) (silent lc).
  Proof.
    induction lc as [|[[v|n| |t u] q] lc IH]; cbn [silent In]; auto. intros [Q|Q]; [discriminate Q | auto].
  Qed.
  Lemma conversion_no_done lc x es p : give_conversion lc x = Ok es -> ~ In (Done p) es.
  Proof.
    unfold give_conversion. intros R I. oinv R. injection R as <-. apply in_app_iff in I. destruct I as [I|[I|[]]]; [exact (silent_no_done _ _ I) | discriminate I].
  Qed.
  (* places could be given at every head *)
  Definition good (s : path) (a : args) : Prop :=
    forall q pre post lc mk conv, down T s a q (pre, post, lc) -> names T q mk conv ->
      (exists es, give_places pre post lc mk = Ok es) /\ forall x, conv = Some x -> exists es, give_conversion lc x = Ok es.
  Definition weight (e : effect) : nat := match e with Done p => List.length p | _ => 0 end.
  Lemma fresh (es : list effect) : exists p, ~ In (Done p) es.
  Proof.
    exists (repeat 0 (S (fold_right Nat.max 0 (map weight es)))). intro I.
    assert (L : forall l e, In e l -> weight e <= fold_right Nat.max 0 (map weight l)).
    { induction l as [|x l IH]; intros e J; [destruct J |]. cbn [map fold_right]. destruct J as [->|J]; [lia |]. specialize (IH _ J). lia. }
    specialize (L _ _ I). cbn [weight] in L. rewrite repeat_length in L. lia.
  Qed.
  Lemma finite_good s a es : (forall e, W s a e -> In e es) -> good s a.
  Proof.
    intros H q pre post lc mk conv D N. destruct (fresh es) as (u & NU). split.
    - destruct (give_places pre post lc mk) as [es'| | | |] eqn:G; [eauto | exfalso; apply NU, H; exists q, (pre, post, lc); (split; [exact D |]); eapply own_place; [exact N |]; intros es' Q; congruence ..].
    - intros x ->. destruct (give_conversion lc x) as [es'| | | |] eqn:G; [eauto | exfalso; apply NU, H; exists q, (pre, post, lc); (split; [exact D |]); eapply own_conv; [exact N |]; intros es' Q; congruence ..].
  Qed.
  Lemma done_W s a u b ch : down T s a u b -> subtree T u = Some (NT "TANRU_UNIT_1" ch) -> W s a (Done u).
  Proof. intros D E. exists u, b. split; [exact D |]. eapply own_done; exact E. Qed.
  Lemma W_done s a u : good s a -> W s a (Done u) -> exists b ch, down T s a u b /\ subtree T u = Some (NT "TANRU_UNIT_1" ch).
  Proof.
    intros G (q & b & D & O). inversion O; subst; [eauto | exfalso ..].
    - match goal with H : names T _ _ _ |- _ => destruct (G _ _ _ _ _ _ D H) as [(es & Q) _] end. eapply places_no_done; eauto.
    - match goal with H : names T _ _ _ |- _ => destruct (G _ _ _ _ _ _ D H) as [_ Q] end. destruct (Q _ eq_refl) as (es & Q'). eapply conversion_no_done; eauto.
  Qed.
  Lemma is_done_in es p : is_done es p = true <-> In (Done p) es.
  Proof.
    unfold is_done. rewrite existsb_exists. split.
    - intros (e & I & Q). destruct e; try discriminate Q. destruct (list_eq_dec Nat.eq_dec _ p) as [->|]; [exact I | discriminate Q].
    - intro I. exists (Done p). split; [exact I |]. destruct (list_eq_dec Nat.eq_dec p p); [reflexivity | contradiction].
  Qed.

  (* one node *)
  Lemma leftover_cases es (p : list nat) k ch a : subtree T p = Some (NT k ch) -> leftover es (p, NT k ch) = Ok a ->
    (~ linked T p /\ a = []) \/
    (linked T p /\ is_done es p = true /\ a = []) \/
    (linked T p /\ is_done es p = false /\ forall e, In e a <-> W p nothing e).
  Proof.
    intros E R. unfold leftover in R. cbn [fst snd is_nt] in R. destruct (String.eqb_spec k "TANRU_UNIT_1") as [->|NK].
    2:{ left. injection R as <-. split; [| reflexivity]. intros (c & la & E'). rewrite E in E'. injection E' as -> _. contradiction. }
    pose proof (node_parsed p _ ch E ltac:(naug)) as PC. destruct (tu1_inv _ PC) as (cc & [->|(dd & ->)]).
    - left. change (links_of (p, NT "TANRU_UNIT_1" [NT "TANRU_UNIT_2" cc])) with (Ok (A := option (list term)) None) in R. cbn [obind] in R. injection R as <-.
      split; [| reflexivity]. intros (c & la & E'). rewrite E in E'. discriminate E'.
    - right. assert (LK : linked T p) by (eexists _, _; exact E). destruct (links_of_spec p cc dd PC) as [LS _]. cbn zeta in LS. rewrite LS in R.
      destruct (small _); [| discriminate R]. cbn [obind] in R. destruct (is_done es p) eqn:D; [left; injection R as <-; auto |]. right. split; [exact LK |]. split; [reflexivity |].
      change (child_ref (p, NT "TANRU_UNIT_1" [NT "TANRU_UNIT_2" cc; NT "LINKARGS" dd]) 0) with (Ok (A := here) (p ++ [0], NT "TANRU_UNIT_2" cc)) in R. cbn [obind] in R.
      oinv R. injection R as <-. destruct (all_ok T PT CT (depth (p ++ [0], NT "TANRU_UNIT_2" cc))) as (HT & _).
      intro e. rewrite in_app_iff. rewrite (HT _ _ _ _ _ _ (sits_child _ _ _ _ 0 _ E eq_refl) E0 e). unfold nothing. rewrite (W_tu1_linked _ _ _ _ _ _ _ _ E). cbn [app In].
      split; [intros [Q|[Q|[]]]; auto | intros [Q|Q]; auto].
  Qed.
  Definition at_node (n : here) : Prop := exists k ch, snd n = NT k ch /\ subtree T (fst n) = Some (snd n).
  Definition paths (l : list here) : list path := map fst l.
  Section RUN.
    Variable es0 : list effect.
    Hypothesis B0 : forall e, In e es0 <-> begun e.

    Definition known (l1 : list here) (c1 : list effect) : Prop :=
      (forall e, In e c1 <-> exists u, In u (paths l1) /\ loose T u /\ W u nothing e) /\
      (forall q, In q (paths l1) -> linked T q -> loose T q \/ In (Done q) (es0 ++ c1)).
    Definition listed (l : list here) : Prop := StronglySorted earlier l /\ Forall at_node l /\ forall p, linked T p -> In p (paths l).
    Lemma run_loose l1 (p : path) x l2 c1 : listed (l1 ++ (p, x) :: l2) -> known l1 c1 ->
      (In (Done p) (es0 ++ c1) -> ~ loose T p) /\ (linked T p -> ~ In (Done p) (es0 ++ c1) -> loose T p).
    Proof.
      intros (SS & AN & LI) (I1 & I2).
      destruct (sorted_split _ _ _ SS) as [BEF AFT].
      assert (UP : forall u, In u (paths l1) -> u <> p).
      { intros u IU ->. apply in_map_iff in IU. destruct IU as (m & Q & IM). specialize (BEF _ IM). unfold earlier in BEF. cbn [fst] in BEF. rewrite Q, lexlt_irrefl in BEF. discriminate BEF. }
      assert (DN : In (Done p) (es0 ++ c1) <-> begun (Done p) \/ exists u, In u (paths l1) /\ loose T u /\ W u nothing (Done p)) by (rewrite in_app_iff, B0, I1; reflexivity).
      assert (GB : forall s b, begins T s b -> good s b) by (intros s b BG; apply (finite_good s b es0); intros e' Q; apply B0; exists s, b; auto).
      assert (GL : forall u, In u (paths l1) -> loose T u -> good u nothing) by (intros u IU LU; apply (finite_good u nothing c1); intros e' Q; apply I1; eauto).
      assert (NL : In (Done p) (es0 ++ c1) -> ~ loose T p).
      { intros D (_ & L2 & L3). apply DN in D. destruct D as [(s & b & BG & Q)|(u & IU & LU & Q)]; apply W_done in Q; eauto; destruct Q as (b' & ch' & D & _).
        - exact (L2 _ _ _ BG D).
        - destruct LU as [LU _]. exact (L3 _ _ _ LU (UP _ IU) D). }
      assert (ISL : linked T p -> ~ In (Done p) (es0 ++ c1) -> loose T p).
      { intros LP ND. assert (TU : exists ch', subtree T p = Some (NT "TANRU_UNIT_1" ch')) by (destruct LP as (c & la & E'); eauto). destruct TU as (tch & TU).
        split; [exact LP |]. split.
        - intros q b b' BG D. apply ND. apply DN. left. exists q, b. split; [exact BG |]. eapply done_W; eassumption.
        - intros q b b' LQ NQ D. destruct (down_below _ _ _ _ D) as (r & ->).
          assert (NR : r <> []) by (intros ->; rewrite app_nil_r in NQ; contradiction).
          assert (IQ : In q (paths l1)).
          { specialize (LI _ LQ). unfold paths in LI. rewrite map_app, in_app_iff in LI. destruct LI as [LI|[LI|LI]]; [exact LI | |].
            - cbn [fst] in LI. exfalso. apply NQ. symmetry. exact LI.
            - exfalso. apply in_map_iff in LI. destruct LI as (m & Q & IM). specialize (AFT _ IM). unfold earlier in AFT. cbn [fst] in AFT. rewrite Q in AFT.
              apply lexlt_asym in AFT. rewrite (lexlt_prefix q r NR) in AFT. discriminate AFT. }
          apply ND. apply DN. destruct (I2 _ IQ LQ) as [LS|DQ].
          + right. exists q. split; [exact IQ |]. split; [exact LS |]. destruct (down_any _ _ _ _ D nothing) as (b2 & D2). eapply done_W; eassumption.
          + rewrite in_app_iff, B0, I1 in DQ. destruct DQ as [(s & b2 & BG & Q)|(u & IU & LU & Q)]; apply W_done in Q; eauto; destruct Q as (b3 & ch3 & D3 & _);
              destruct (down_any _ _ _ _ D b3) as (b4 & D4); pose proof (down_app _ _ _ _ _ _ D3 D4) as D5.
            * left. exists s, b2. split; [exact BG |]. eapply done_W; eassumption.
            * right. exists u. split; [exact IU |]. split; [exact LU |]. eapply done_W; eassumption. }
      split; assumption.
    Qed.
    Lemma run_step l1 (p : list nat) k ch l2 c1 a : listed (l1 ++ (p, NT k ch) :: l2) -> subtree T p = Some (NT k ch) -> known l1 c1 ->
      leftover (es0 ++ c1) (p, NT k ch) = Ok a -> known (l1 ++ [(p, NT k ch)]) (c1 ++ a).
    Proof.
      intros LS0 EP KN E. destruct (run_loose _ _ _ _ _ LS0 KN) as [NL ISL]. destruct KN as [I1 I2].
      assert (PS : forall u, In u (paths (l1 ++ [(p, NT k ch)])) <-> In u (paths l1) \/ u = p).
      { intro u. unfold paths. rewrite map_app, in_app_iff. cbn [map fst In]. split; [intros [Q|[Q|[]]]; auto | intros [Q|Q]; auto]. }
      split.
      - intro e'. rewrite in_app_iff, I1. destruct (leftover_cases _ _ _ _ _ EP E) as [[NK ->]|[(LP & D & ->)|(LP & D & Q)]].
        * split; [intros [(u & IU & L & Q)|[]]; exists u; rewrite PS; auto |]. intros (u & IU & L & Q). apply PS in IU. destruct IU as [IU| ->]; [left; eauto | destruct L as [L _]; contradiction].
        * apply is_done_in in D. split; [intros [(u & IU & L & Q)|[]]; exists u; rewrite PS; auto |]. intros (u & IU & L & Q). apply PS in IU.
          destruct IU as [IU| ->]; [left; eauto | destruct (NL D L)].
        * assert (LS : loose T p) by (apply ISL; [exact LP |]; rewrite <- is_done_in; congruence). rewrite Q. split.
          -- intros [(u & IU & L & Q')|Q']; [exists u; rewrite PS; auto |]. exists p. rewrite PS. auto.
          -- intros (u & IU & L & Q'). apply PS in IU. destruct IU as [IU| ->]; [left; eauto | right; exact Q'].
      - intros q IQ LQ. apply PS in IQ. destruct IQ as [IQ| ->].
        * destruct (I2 _ IQ LQ) as [L|D]; [left; exact L | right]. rewrite app_assoc. apply in_or_app. left. exact D.
        * destruct (is_done (es0 ++ c1) p) eqn:D.
          -- right. rewrite app_assoc. apply in_or_app. left. apply is_done_in. exact D.
          -- left. apply ISL; [exact LQ |]. rewrite <- is_done_in. congruence.
    Qed.
    Lemma run_spec l2 : forall l1 c1 c2, listed (l1 ++ l2) -> known l1 c1 -> run (es0 ++ c1) l2 = Ok c2 -> known (l1 ++ l2) (c1 ++ c2).
    Proof.
      induction l2 as [|n l2 IH]; intros l1 c1 c2 LS0 KN R.
      - injection R as <-. rewrite !app_nil_r in *. exact KN.
      - cbn [run] in R. oinv R. oinv R. injection R as <-.
        assert (ANn : at_node n) by (destruct LS0 as (_ & AN & _); rewrite Forall_forall in AN; apply AN; apply in_or_app; right; left; reflexivity).
        destruct n as [p x]. destruct ANn as (k & ch & EX & EP). cbn [fst snd] in EX, EP. subst x.
        pose proof (run_step _ _ _ _ _ _ _ LS0 EP KN E) as KN2.
        assert (LL : (l1 : list here) ++ @cons here (p, NT k ch) l2 = (l1 ++ @cons here (p, NT k ch) []) ++ l2) by (rewrite <- app_assoc; reflexivity).
        change (l1 ++ (p, NT k ch) :: l2) with ((l1 : list here) ++ @cons here (p, NT k ch) l2) in *. rewrite LL in LS0 |- *. rewrite app_assoc.
        apply IH; [exact LS0 | exact KN2 |]. rewrite app_assoc. exact E0.
    Qed.
    Lemma all_listed : listed (nodes [] T).
    Proof.
      split; [apply nodes_sorted |]. split.
      - apply Forall_forall. intros n I. apply nodes_in in I. destruct I as (r & k & ch & -> & E). exists k, ch. auto.
      - intros p (x & la & E). apply in_map_iff. exists (p, NT "TANRU_UNIT_1" [x; la]). split; [reflexivity |]. apply nodes_in. exists p, "TANRU_UNIT_1", [x; la]. auto.
    Qed.
    Lemma none_known : known [] [].
    Proof. split; [intro e; split; [intros [] | intros (u & [] & _)] | intros q []]. Qed.
    Lemma phase2_spec c : phase2 es0 [] T = Ok c -> forall e, In e c <-> exists u, loose T u /\ W u nothing e.
    Proof.
      intros R e. rewrite phase2_run in R. assert (R' : run (es0 ++ []) (nodes [] T) = Ok c) by (rewrite app_nil_r; exact R).
      destruct (run_spec (nodes [] T) [] [] c all_listed none_known R') as [H _]. cbn [app] in H. rewrite H.
      split; [intros (u & _ & Q); eauto |]. intros (u & L & Q). exists u. split; [apply all_listed; destruct L as [L _]; exact L | auto].
    Qed.
  End RUN.

  Theorem terms_effects es : terms_processing T = Ok es -> forall e, In e es <-> exists s a, source T s a /\ W s a e.
  Proof.
    unfold terms_processing. intros R e. oinv R. oinv R. oinv R. oinv R. injection R as <-.
    assert (B0 : forall e, In e (a0 ++ a1) <-> begun e) by (intro e'; rewrite in_app_iff, (scan1 _ E0), (scan2 _ E1), begun_iff; reflexivity).
    rewrite app_assoc, in_app_iff, B0, (phase2_spec _ B0 _ E2 e). split.
    - intros [(s & b & B & Q)|(u & L & Q)]; [exists s, b | exists u, nothing]; (split; [| exact Q]); unfold source; auto.
    - intros (s & b & [B|[L ->]] & Q); [left; exists s, b; auto | right; eauto].
  Qed.
  Theorem terms_good es s a : terms_processing T = Ok es -> source T s a -> good s a.
  Proof. intros R SO. apply (finite_good s a es). intros e Q. apply (terms_effects _ R). eauto. Qed.
End ROOTS.
