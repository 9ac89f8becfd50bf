(* The walk of terms.c: bridi. *)
From Coq Require Import String List NArith ZArith Bool Arith Lia.
From Verif Require Import Base TokData CmavoData TokModel StreamModel TreeModel TreeOutModel GrammarData GramModel GramSpec GramProofs PassProofs2
  ConvSpec ConvProofs2 ErasureProofs TermsModel TermsSpec WalkModel WalkSpec WalkProofs WalkProofs2 WalkProofs3.
From Verif Require OutModel PassModel.
Import ListNotations.
Open Scope string_scope.
Open Scope list_scope.

(* ---------- terms of children ---------- *)

Lemma kid_terms_none K p ch : K <> "" -> (forall j cc, nth_error ch j <> Some (NT K cc)) -> forall i, kid_terms K p i ch = [].
Proof.
  intro N. induction ch as [|c ch IH]; intros NO i; cbn [kid_terms]; [reflexivity |].
  rewrite IH by (intros j cc; exact (NO (S j) cc)). rewrite app_nil_r.
  destruct (String.eqb_spec (kind c) K) as [E|_]; [| reflexivity]. exfalso. destruct c as [x|k cc]; cbn [kind] in E; [congruence |]. subst k. exact (NO 0 cc eq_refl).
Qed.
Lemma kid_terms_at K p ch : K <> "" -> forall n cc i, only K ch n cc -> kid_terms K p i ch = terms_in (p ++ [i + n]) (NT K cc).
Proof.
  intro N. induction ch as [|c ch IH]; intros n cc i O; [pose proof (only_at _ _ _ _ O) as Q; destruct n; discriminate Q |]. cbn [kid_terms].
  destruct n as [|n].
  - pose proof (only_at _ _ _ _ O) as Q. injection Q as ->. cbn [kind]. rewrite String.eqb_refl, Nat.add_0_r.
    rewrite (kid_terms_none K p ch N), app_nil_r; [reflexivity |]. intros j c' Q. assert (X : S j = 0 /\ c' = cc) by (apply O; exact Q). destruct X as [X _]; discriminate X.
  - rewrite (IH n cc (S i)).
    + replace (S i + n) with (i + S n) by lia. destruct (String.eqb_spec (kind c) K) as [E|_]; [| reflexivity]. exfalso.
      destruct c as [x|k c']; cbn [kind] in E; [congruence |]. subst k. assert (X : 0 = S n /\ c' = cc) by (apply O; reflexivity). destruct X as [X _]; discriminate X.
    + intros j c'. specialize (O (S j) c'). cbn [nth_error] in O. rewrite O. split; intros [A B]; split; auto; lia.
Qed.

Definition has_tail (ch : list tree) : bool :=
  existsb (fun c => match c with NT k cc => String.eqb k "TAIL_TERMS" && existsb (is_nt "TERMS") cc | Leaf _ => false end) ch.
Lemma tail_shape : forallb (fun ss => match ss with SN k :: ss => if String.eqb k "TERMS" then forallb bare_sym ss else false | ss => forallb bare_sym ss end) (alternatives "TAIL_TERMS") = true.
Proof. vm_compute. reflexivity. Qed.

Definition joined (s post : list term) : outcome (list term) :=
  if small s then if small (s ++ post) then Ok (s ++ post) else Abort else UB UB_bounds.
Lemma bare_no_terms ss ch : fitsx ss ch -> forallb bare_sym ss = true -> existsb (is_nt "TERMS") ch = false.
Proof.
  intros F B. destruct (existsb (is_nt "TERMS") ch) eqn:X; [| reflexivity]. exfalso. apply existsb_exists in X. destruct X as (c & I & N).
  destruct c as [x|k cc]; [discriminate N |]. apply String.eqb_eq in N. subst k. apply In_nth_error in I. destruct I as (j & J).
  destruct (find_no "TERMS" ss [] "" ch ltac:(naug) F (bare_count "TERMS" _ eq_refl B)) as [_ Q]. exact (Q _ _ J).
Qed.
Lemma catenate_joined s post : tv_catenate s post = if small (s ++ post) then Ok (s ++ post) else Abort.
Proof. unfold tv_catenate, small, MAX_TERMS_IN_VECTOR. rewrite app_length. reflexivity. Qed.

Lemma tail_terms_spec (p : list nat) cc : parsed (NT "TAIL_TERMS" cc) ->
  let s := sorts (terms_in p (NT "TAIL_TERMS" cc)) in
  (do t <- find_child (p, NT "TAIL_TERMS" cc) 1 "TERMS"; match t with None => Ok None | Some t => do v <- tv_build t; Ok (Some v) end) =
    (if existsb (is_nt "TERMS") cc then if small s then Ok (Some s) else UB UB_bounds else Ok None) /\
  (existsb (is_nt "TERMS") cc = false -> s = []) /\ Forall term_ok s.
Proof.
  intro P. cbn zeta. destruct (alt _ _ _ P ltac:(naug) tail_shape) as (ss & F & SH). rewrite (terms_seq p "TAIL_TERMS" cc eq_refl).
  assert (Q : forallb bare_sym ss = true \/ exists l, ss = SN "TERMS" :: l /\ forallb bare_sym l = true).
  { destruct ss as [|[k|t|t] l]; auto. destruct (String.eqb_spec k "TERMS") as [->|]; [right; eauto | discriminate SH]. }
  destruct Q as [B|(l & -> & B)].
  - rewrite (bare_no_terms _ _ F B), (each_bare _ _ _ F B). cbn [sorts flat_map].
    destruct (find_no "TERMS" ss p "TAIL_TERMS" cc ltac:(naug) F (bare_count "TERMS" _ eq_refl B)) as [FN _]. rewrite FN. cbn [obind]. auto.
  - inversion F as [|ty ss0 tc rest F'| | |]; subst. cbn [existsb is_nt]. rewrite String.eqb_refl. cbn [orb].
    change (find_child (p, NT "TAIL_TERMS" (NT "TERMS" tc :: rest)) 1 "TERMS") with (Ok (A := option here) (Some (p ++ [0], NT "TERMS" tc))). cbn [obind].
    change (each p 0 (NT "TERMS" tc :: rest)) with (terms_in (p ++ [0]) (NT "TERMS" tc) ++ each p 1 rest).
    rewrite (each_bare _ _ _ F' B), app_nil_r.
    assert (P1 : parsed (NT "TERMS" tc)) by (eapply parsed_children; [exact P | naug | left; reflexivity]).
    destruct (tv_build_spec (p ++ [0], NT "TERMS" tc) eq_refl P1) as [B1 B2]. cbn [fst snd] in B1, B2. rewrite B1.
    split; [destruct (small _); reflexivity |]. split; [intro Q; discriminate Q | exact B2].
Qed.
Lemma tail_of_spec (p : list nat) k ch ss : parsed (NT k ch) -> k <> "AUGMENTED" -> fitsx ss ch -> count "TAIL_TERMS" ss <= 1 ->
  let s := sorts (kid_terms "TAIL_TERMS" p 0 ch) in
  tail_of (p, NT k ch) = (if has_tail ch then if small s then Ok (Some s) else UB UB_bounds else Ok None) /\ (has_tail ch = false -> s = []) /\ Forall term_ok s.
Proof.
  intros P A F C. cbn zeta. unfold tail_of. destruct (count "TAIL_TERMS" ss) as [|[|n]] eqn:CE; [| | lia].
  - destruct (find_no "TAIL_TERMS" ss p k ch ltac:(naug) F CE) as [FN NO]. rewrite FN. cbn [obind].
    rewrite (kid_terms_none "TAIL_TERMS" p ch ltac:(discriminate) NO). cbn [sorts flat_map].
    replace (has_tail ch) with false; [auto |]. symmetry. unfold has_tail. destruct (existsb _ ch) eqn:X; [| reflexivity]. exfalso.
    apply existsb_exists in X. destruct X as (c & I & N). destruct c as [x|k' cc]; [discriminate N |]. apply andb_true_iff in N. destruct N as [N _].
    apply String.eqb_eq in N. subst k'. apply In_nth_error in I. destruct I as (j & J). exact (NO _ _ J).
  - destruct (find_one "TAIL_TERMS" ss p k ch ltac:(naug) F CE) as (i & cc & FO & O). rewrite FO. cbn [obind].
    rewrite (kid_terms_at "TAIL_TERMS" p ch ltac:(discriminate) i cc 0 O). cbn [Nat.add].
    assert (P1 : parsed (NT "TAIL_TERMS" cc)) by (eapply parsed_children; [exact P | exact A | eapply nth_error_In; apply only_at; exact O]).
    replace (has_tail ch) with (existsb (is_nt "TERMS") cc); [apply tail_terms_spec; exact P1 |].
    unfold has_tail. apply eq_true_iff_eq. split.
    + intro X. apply existsb_exists. exists (NT "TAIL_TERMS" cc). split; [eapply nth_error_In; apply only_at; exact O |]. rewrite String.eqb_refl. exact X.
    + intro Y. apply existsb_exists in Y. destruct Y as (c & I & N). destruct c as [x|k' c']; [discriminate N |]. apply andb_true_iff in N. destruct N as [N X]. apply String.eqb_eq in N. subst k'.
      apply In_nth_error in I. destruct I as (j & J). apply O in J. destruct J as [_ ->]. exact X.
Qed.
Lemma with_tail_spec (p : list nat) k ch ss post : parsed (NT k ch) -> k <> "AUGMENTED" -> fitsx ss ch -> count "TAIL_TERMS" ss <= 1 ->
  let s := sorts (kid_terms "TAIL_TERMS" p 0 ch) in
  with_tail (p, NT k ch) post = (if has_tail ch then joined s post else Ok post) /\ (has_tail ch = false -> s = []) /\ Forall term_ok s.
Proof.
  intros P A F C. cbn zeta. destruct (tail_of_spec p k ch ss P A F C) as (E & N & O). cbn zeta in *. unfold with_tail. rewrite E. split; [| auto].
  unfold joined. destruct (has_tail ch); [| reflexivity]. destruct (small _); [| reflexivity]. cbn [obind]. apply catenate_joined.
Qed.
Lemma with_tail_inv (p : list nat) k ch ss post post' : parsed (NT k ch) -> k <> "AUGMENTED" -> fitsx ss ch -> count "TAIL_TERMS" ss <= 1 ->
  with_tail (p, NT k ch) post = Ok post' -> post' = sorts (kid_terms "TAIL_TERMS" p 0 ch) ++ post.
Proof.
  intros P A F C R. destruct (with_tail_spec p k ch ss post P A F C) as (E & N & _). cbn zeta in *. rewrite E in R. unfold joined in R.
  destruct (has_tail ch); [| injection R as <-; rewrite (N eq_refl); reflexivity].
  destruct (small _); [| discriminate R]. destruct (small _); [injection R as <-; reflexivity | discriminate R].
Qed.

Section BRIDI.
  Variable T : tree.
  Hypothesis PT : parsed T.
  Hypothesis CT : is_nt "CHUNKS" T = true.
  Notation W := (W T).

  Lemma before_kid p k ch i : subtree T p = Some (NT k ch) -> bridi_part k = true -> before T (p ++ [i]) = before T p ++ sorts (kid_terms "TERMS" p 0 ch).
  Proof.
    intros E B. unfold before. rewrite rev_app_distr. cbn [rev app before_r]. rewrite rev_involutive. rewrite E, B. apply sorts_app.
  Qed.
  Lemma after_kid p k ch i : subtree T p = Some (NT k ch) -> bridi_part k = true -> after T (p ++ [i]) = sorts (kid_terms "TAIL_TERMS" p 0 ch) ++ after T p.
  Proof.
    intros E B. unfold after. rewrite rev_app_distr. cbn [rev app after_r]. rewrite rev_involutive. rewrite E, B. apply sorts_app.
  Qed.
  Lemma before_top p k ch i : subtree T p = Some (NT k ch) -> bridi_part k = false -> before T (p ++ [i]) = [] /\ after T (p ++ [i]) = [].
  Proof.
    intros E B. unfold before, after. rewrite rev_app_distr. cbn [rev app before_r after_r]. rewrite rev_involutive. rewrite E, B. auto.
  Qed.

  Inductive leads : path -> path -> Prop :=
  | l_here p ch : subtree T p = Some (NT "MAIN_SELBRI" ch) -> leads p p
  | l_step p k ch i c m : subtree T p = Some (NT k ch) -> bridi_part k = true -> nth_error ch i = Some c -> leads (p ++ [i]) m -> leads p m.
  Definition X (p : path) (e : effect) : Prop := exists m, leads p m /\ W (m ++ [0]) (before T m, after T m, []) e.

  Definition on_way (k : string) : bool := bridi_part k || String.eqb k "MAIN_SELBRI".
  Lemma leads_kind p m c : leads p m -> subtree T p = Some c -> on_way (kind c) = true.
  Proof.
    intros L E. destruct L as [p ch E1|p k ch i c' m E1 B _ _]; rewrite E in E1; injection E1 as ->; unfold on_way; cbn [kind]; [reflexivity | rewrite B; reflexivity].
  Qed.
  Definition xvia (p : path) (e : effect) (ch : list tree) (K : string) : Prop := exists i cc, nth_error ch i = Some (NT K cc) /\ X (p ++ [i]) e.
  Lemma X_via L p k ch e : sits T (p, NT k ch) -> bridi_part k = true -> k <> "AUGMENTED" -> forallb (fun k' => if on_way k' then has k' L else true) (kids k) = true ->
    (X p e <-> Exists (xvia p e ch) L).
  Proof.
    intros SI B A C. assert (E : subtree T p = Some (NT k ch)) by exact SI. rewrite Exists_exists. split.
    - intros (m & LD & Q). inversion LD as [p0 ch0 E1|p0 k0 ch0 i c m0 E1 B1 N LD1]; subst.
      + rewrite E in E1. injection E1 as -> ->. discriminate B.
      + rewrite E in E1. injection E1 as <- <-. assert (SC : subtree T (p ++ [i]) = Some c) by (eapply sits_child; eassumption).
        pose proof (leads_kind _ _ _ LD1 SC) as OW. destruct c as [x|k' cc]; [discriminate OW |]. cbn [kind] in OW.
        assert (A' : k' <> "AUGMENTED") by (intros ->; discriminate OW).
        destruct (parent_of T p i k' cc PT CT SC A') as (ty & ch' & E2 & _ & _ & _ & K). rewrite E in E2. injection E2 as <- <-.
        rewrite forallb_forall in C. specialize (C _ K). cbn beta in C. rewrite OW in C. exists k'. split; [apply has_In; exact C |].
        exists i, cc. split; [exact N |]. exists m. auto.
    - intros (k' & _ & i & cc & N & m & LD & Q). exists m. split; [| exact Q]. eapply l_step; eassumption.
  Qed.
  Lemma xvia_only p e K ch i cc : only K ch i cc -> (xvia p e ch K <-> X (p ++ [i]) e).
  Proof.
    intro O. unfold xvia. split.
    - intros (j & dd & N & Q). apply O in N. destruct N as [-> _]. exact Q.
    - intro Q. exists i, cc. split; [apply O; auto | exact Q].
  Qed.
  Lemma xvia_none p e K ch : (forall j cc, nth_error ch j <> Some (NT K cc)) -> ~ xvia p e ch K.
  Proof. intros NO (j & dd & N & _). exact (NO _ _ N). Qed.

  (* nothing before or after is added at a node *)
  Lemma plain_kid p k ch i : subtree T p = Some (NT k ch) -> bridi_part k = true ->
    (forall j cc, nth_error ch j <> Some (NT "TERMS" cc)) -> (forall j cc, nth_error ch j <> Some (NT "TAIL_TERMS" cc)) ->
    before T (p ++ [i]) = before T p /\ after T (p ++ [i]) = after T p.
  Proof.
    intros E B N1 N2. rewrite (before_kid _ _ _ _ E B), (after_kid _ _ _ _ E B).
    rewrite (kid_terms_none "TERMS" p ch) by (discriminate || assumption). rewrite (kid_terms_none "TAIL_TERMS" p ch) by (discriminate || assumption).
    cbn [sorts flat_map app]. rewrite app_nil_r. auto.
  Qed.

  Ltac of_count C := apply (counts_in _ _ C); cbn [In]; auto 10.
  Notation kid_sits := (child_sits T).
  Notation node_parsed := (here_parsed T PT CT).

  (* ---------- sentences ---------- *)

  Lemma sentence_shape : forallb (fun ss => match ss with [SN k] => has k ["NO_CU_SENTENCE"; "OBSERVATIVE_SENTENCE"] | _ => counts [("TERMS", 1); ("BRIDI_TAIL", 1); ("TAIL_TERMS", 0); ("NO_CU_SENTENCE", 0); ("OBSERVATIVE_SENTENCE", 0)] ss end) (alternatives "SENTENCE") = true.
  Proof. vm_compute. reflexivity. Qed.
  Lemma no_cu_shape : forallb (counts [("TERMS", 1); ("BRIDI_TAIL", 1); ("TAIL_TERMS", 0)]) (alternatives "NO_CU_SENTENCE") = true.
  Proof. vm_compute. reflexivity. Qed.
  Lemma observative_shape : forallb (counts [("TERMS", 0); ("BRIDI_TAIL", 1); ("TAIL_TERMS", 0)]) (alternatives "OBSERVATIVE_SENTENCE") = true.
  Proof. vm_compute. reflexivity. Qed.

  Definition body_of (p : list nat) (H : nat) (b : here) (e : effect) : Prop :=
    exists (q : list nat) cc, find_child b 1 "BRIDI_TAIL" = Ok (Some (q, NT "BRIDI_TAIL" cc)) /\ sits T (q, NT "BRIDI_TAIL" cc) /\ height (NT "BRIDI_TAIL" cc) < H /\
      (X p e <-> X q e) /\ after T q = after T p /\
      (find_child b 1 "TERMS" = Ok None /\ before T q = before T p \/
       exists t, find_child b 1 "TERMS" = Ok (Some t) /\ is_nt "TERMS" (snd t) = true /\ parsed (snd t) /\ before T q = before T p ++ sorts (terms_in (fst t) (snd t))).
  Lemma body_terms (p : list nat) k ch ss e : sits T (p, NT k ch) -> k <> "AUGMENTED" -> bridi_part k = true -> fitsx ss ch ->
    count "BRIDI_TAIL" ss = 1 -> count "TAIL_TERMS" ss = 0 -> count "TERMS" ss = 1 \/ count "TERMS" ss = 0 ->
    (forall e, X p e <-> xvia p e ch "BRIDI_TAIL") -> body_of p (height (NT k ch)) (p, NT k ch) e.
  Proof.
    intros SI A B F CB CTT C V. assert (E : subtree T p = Some (NT k ch)) by exact SI.
    destruct (find_one "BRIDI_TAIL" ss p k ch ltac:(naug) F CB) as (i & cc & FO & O). destruct (find_no "TAIL_TERMS" ss p k ch ltac:(naug) F CTT) as (_ & NO).
    exists (p ++ [i]), cc. split; [exact FO |]. split; [eapply kid_sits; eassumption |]. split; [eapply height_nth; apply only_at; exact O |].
    split; [rewrite V; exact (xvia_only p e _ _ _ _ O) |].
    split; [rewrite (after_kid _ _ _ _ E B), (kid_terms_none "TAIL_TERMS" p ch) by (discriminate || assumption); reflexivity |].
    rewrite (before_kid _ _ _ _ E B). destruct C as [C1|C0].
    - right. destruct (find_one "TERMS" ss p k ch ltac:(naug) F C1) as (j & dd & FT & OT).
      exists (p ++ [j], NT "TERMS" dd). split; [exact FT |]. split; [reflexivity |]. cbn [fst snd].
      split; [eapply parsed_children; [exact (node_parsed _ _ _ SI A) | exact A | eapply nth_error_In; apply only_at; exact OT] |].
      rewrite (kid_terms_at "TERMS" p ch ltac:(discriminate) j dd 0 OT). reflexivity.
    - left. destruct (find_no "TERMS" ss p k ch ltac:(naug) F C0) as (FT & NT0). split; [exact FT |].
      rewrite (kid_terms_none "TERMS" p ch) by (discriminate || assumption). cbn [sorts flat_map]. apply app_nil_r.
  Qed.
  Lemma sentence_spec (p : list nat) ch e : sits T (p, NT "SENTENCE" ch) -> body_of p (height (NT "SENTENCE" ch)) (sentence_body (p, NT "SENTENCE" ch)) e.
  Proof.
    intro SI. pose proof (node_parsed _ _ _ SI ltac:(naug)) as PC. destruct (alt _ _ _ PC ltac:(naug) sentence_shape) as (ss & F & SH).
    assert (Q : counts [("TERMS", 1); ("BRIDI_TAIL", 1); ("TAIL_TERMS", 0); ("NO_CU_SENTENCE", 0); ("OBSERVATIVE_SENTENCE", 0)] ss = true \/
      ss = [SN "NO_CU_SENTENCE"] \/ ss = [SN "OBSERVATIVE_SENTENCE"]).
    { destruct ss as [|[k|t|t] [|s' l]]; auto. apply has_In in SH. destruct SH as [<-|[<-|[]]]; auto. }
    clear SH. destruct Q as [C|Q].
    - assert (C1 : count "TERMS" ss = 1) by of_count C. assert (C2 : count "BRIDI_TAIL" ss = 1) by of_count C.
      assert (C3 : count "TAIL_TERMS" ss = 0) by of_count C. assert (C4 : count "NO_CU_SENTENCE" ss = 0) by of_count C. assert (C5 : count "OBSERVATIVE_SENTENCE" ss = 0) by of_count C.
      assert (NB : sentence_body (p, NT "SENTENCE" ch) = (p, NT "SENTENCE" ch)).
      { destruct (find_one "TERMS" ss p "SENTENCE" ch ltac:(naug) F C1) as (i & c1 & _ & O1). destruct (find_one "BRIDI_TAIL" ss p "SENTENCE" ch ltac:(naug) F C2) as (j & c2 & _ & O2).
        assert (KD : "TERMS" <> "BRIDI_TAIL") by discriminate. destruct (only_two _ _ _ _ _ _ _ KD O1 O2) as [_ L].
        unfold sentence_body. cbn [snd]. destruct ch as [|[x|k c] [|d ds]]; try reflexivity. discriminate L. }
      rewrite NB. eapply body_terms; [exact SI | naug | reflexivity | exact F | exact C2 | exact C3 | left; exact C1 |].
      intro e'. rewrite (X_via ["BRIDI_TAIL"; "NO_CU_SENTENCE"; "OBSERVATIVE_SENTENCE"] _ _ _ _ SI eq_refl ltac:(naug)) by (vm_compute; reflexivity).
      rewrite !Exists_cons, Exists_nil.
      destruct (find_no "NO_CU_SENTENCE" ss p "SENTENCE" ch ltac:(naug) F C4) as (_ & N4). destruct (find_no "OBSERVATIVE_SENTENCE" ss p "SENTENCE" ch ltac:(naug) F C5) as (_ & N5).
      pose proof (xvia_none p e' _ _ N4). pose proof (xvia_none p e' _ _ N5). tauto.
    - assert (INNER : forall k cc ss', (k = "NO_CU_SENTENCE" \/ k = "OBSERVATIVE_SENTENCE") -> ch = [NT k cc] -> fitsx ss' cc ->
        count "BRIDI_TAIL" ss' = 1 -> count "TAIL_TERMS" ss' = 0 -> count "TERMS" ss' = 1 \/ count "TERMS" ss' = 0 ->
        body_of p (height (NT "SENTENCE" ch)) (sentence_body (p, NT "SENTENCE" ch)) e).
      { clear ss F Q. intros k cc ss KK -> F C2 C3 C1. assert (SC : sits T (p ++ [0], NT k cc)) by (eapply sits_child; [exact SI | reflexivity]).
        assert (NB : sentence_body (p, NT "SENTENCE" [NT k cc]) = (p ++ [0], NT k cc)) by (destruct KK as [->| ->]; reflexivity).
        rewrite NB. assert (BK : bridi_part k = true) by (destruct KK as [->| ->]; reflexivity). assert (AK : k <> "AUGMENTED") by (destruct KK as [->| ->]; naug).
        assert (BO : body_of (p ++ [0]) (height (NT k cc)) (p ++ [0], NT k cc) e).
        { eapply body_terms; [exact SC | exact AK | exact BK | exact F | exact C2 | exact C3 | exact C1 |].
          intro e'. rewrite (X_via ["BRIDI_TAIL"] _ _ _ _ SC BK AK) by (destruct KK as [->| ->]; vm_compute; reflexivity). rewrite Exists_cons, Exists_nil. tauto. }
        destruct BO as (q & dd & B1 & B2 & B3 & B4 & B5 & B6). exists q, dd. split; [exact B1 |]. split; [exact B2 |].
        assert (HK : height (NT k cc) < height (NT "SENTENCE" [NT k cc])) by (apply height_child; left; reflexivity).
        split; [lia |].
        assert (NT1 : forall K, K <> k -> forall j c', nth_error [NT k cc] j <> Some (NT K c')) by (intros K NK j c' N; destruct j as [|[|j]]; try discriminate N; cbn [nth_error] in N; injection N as N _; congruence).
        destruct (plain_kid p "SENTENCE" [NT k cc] 0 SI eq_refl) as [PB PA]; [apply NT1; destruct KK as [->| ->]; discriminate | apply NT1; destruct KK as [->| ->]; discriminate |].
        rewrite <- PB, <- PA. split; [| auto]. rewrite <- B4.
        rewrite (X_via ["BRIDI_TAIL"; "NO_CU_SENTENCE"; "OBSERVATIVE_SENTENCE"] _ _ _ _ SI eq_refl ltac:(naug)) by (vm_compute; reflexivity).
        rewrite Exists_exists. split.
        - intros (K & _ & j & c' & N & Y). destruct j as [|[|j]]; try discriminate N. exact Y.
        - intro Y. exists k. split; [destruct KK as [->| ->]; cbn [In]; auto |]. exists 0, cc. auto. }
      destruct Q as [->| ->]; destruct (fits1 _ _ F) as (cc & ->); pose proof (sits_child _ _ _ _ 0 _ SI eq_refl) as SC; pose proof (node_parsed _ _ _ SC ltac:(naug)) as PS.
      + destruct (alt _ _ _ PS ltac:(naug) no_cu_shape) as (ss & F' & C). eapply INNER; [left; reflexivity | reflexivity | exact F' | of_count C | of_count C | left; of_count C].
      + destruct (alt _ _ _ PS ltac:(naug) observative_shape) as (ss & F' & C). eapply INNER; [right; reflexivity | reflexivity | exact F' | of_count C | of_count C | right; of_count C].
  Qed.

  (* ---------- bridi tails ---------- *)

  Fixpoint sns (ss : list sym) : nat := match ss with [] => 0 | SN _ :: ss => S (sns ss) | _ :: ss => sns ss end.
  Lemma sns_length ss ch : fitsx ss ch -> sns ss <= List.length ch.
  Proof. induction 1; cbn [sns List.length]; lia. Qed.
  Lemma more ss ch : fitsx ss ch -> Nat.leb 2 (sns ss) = true -> Nat.eqb (List.length ch) 1 = false.
  Proof. intros F L. apply Nat.leb_le in L. pose proof (sns_length _ _ F). apply Nat.eqb_neq. lia. Qed.

  Definition fine (l : list (string * nat)) (ss : list sym) : bool :=
    if Nat.leb 2 (sns ss) then if counts l ss then Nat.leb (count "TAIL_TERMS" ss) 1 else false else false.
  Lemma fine_inv l ss : fine l ss = true -> Nat.leb 2 (sns ss) = true /\ counts l ss = true /\ count "TAIL_TERMS" ss <= 1.
  Proof.
    unfold fine. destruct (Nat.leb 2 _); [| intro H; discriminate H]. destruct (counts l ss); [| intro H; discriminate H]. intro H. apply Nat.leb_le in H. auto.
  Qed.

  Lemma subsentence_shape : forallb (fun ss => match ss with [SN k] => String.eqb k "SENTENCE" | [SN k; SN k'] => String.eqb k "PRENEX" && String.eqb k' "SUBSENTENCE" | _ => false end) (alternatives "SUBSENTENCE") = true.
  Proof. vm_compute. reflexivity. Qed.
  Lemma bt3_shape : forallb (fun ss => match ss with [SN k] => has k ["GEK_SENTENCE"; "MAIN_SELBRI"] | SN k :: ss => if String.eqb k "MAIN_SELBRI" then if counts [("TERMS", 0); ("GEK_SENTENCE", 0); ("MAIN_SELBRI", 0)] ss then Nat.leb (count "TAIL_TERMS" ss) 1 else false else false | _ => false end) (alternatives "BRIDI_TAIL_3") = true.
  Proof. vm_compute. reflexivity. Qed.
  Lemma gek_shape : forallb (fun ss => match ss with
      | SN k :: ss' => if String.eqb k "GEK" then fine [("SUBSENTENCE", 2); ("GEK_SENTENCE", 0); ("TERMS", 0)] ss else counts [("SUBSENTENCE", 0); ("GEK_SENTENCE", 1); ("TERMS", 0); ("TAIL_TERMS", 0)] ss
      | ST _ :: ss' => counts [("SUBSENTENCE", 0); ("GEK_SENTENCE", 1); ("TERMS", 0); ("TAIL_TERMS", 0)] ss
      | _ => false end) (alternatives "GEK_SENTENCE") = true.
  Proof. vm_compute. reflexivity. Qed.
  Lemma bt2_shape : forallb (fun ss => match ss with [SN k] => String.eqb k "BRIDI_TAIL_3" | _ => fine [("BRIDI_TAIL_2", 2); ("BRIDI_TAIL_3", 0); ("TERMS", 0)] ss end) (alternatives "BRIDI_TAIL_2") = true.
  Proof. vm_compute. reflexivity. Qed.
  Lemma bt1_shape : forallb (fun ss => match ss with [SN k] => String.eqb k "BRIDI_TAIL_2" | _ => fine [("BRIDI_TAIL_1", 1); ("BRIDI_TAIL_2", 1); ("TERMS", 0)] ss end) (alternatives "BRIDI_TAIL_1") = true.
  Proof. vm_compute. reflexivity. Qed.
  Lemma bt_shape : forallb (fun ss => match ss with [SN k] => String.eqb k "BRIDI_TAIL_1" | _ => fine [("BRIDI_TAIL_1", 1); ("BRIDI_TAIL", 1); ("TERMS", 0)] ss end) (alternatives "BRIDI_TAIL") = true.
  Proof. vm_compute. reflexivity. Qed.
  Lemma ms_shape : forallb (fun ss => match ss with [SN k] => String.eqb k "SELBRI" | _ => false end) (alternatives "MAIN_SELBRI") = true.
  Proof. vm_compute. reflexivity. Qed.

  Definition bright (F : here -> list term -> list term -> outcome (list effect)) (K : string) : Prop :=
    forall (p : list nat) ch es, sits T (p, NT K ch) -> F (p, NT K ch) (before T p) (after T p) = Ok es -> forall e, In e es <-> X p e.

  Lemma main_ok : bright main_selbri "MAIN_SELBRI".
  Proof.
    intros p ch es SI R e. destruct (alt _ _ _ (node_parsed _ _ _ SI ltac:(naug)) ltac:(naug) ms_shape) as (ss & F & SH).
    destruct ss as [|[k|t|t] [|s' l]]; try discriminate SH. apply String.eqb_eq in SH. subst k. destruct (fits1 _ _ F) as (cc & ->).
    change (main_selbri (p, NT "MAIN_SELBRI" [NT "SELBRI" cc]) (before T p) (after T p)) with (selbri_args (depth (p ++ [0], NT "SELBRI" cc)) (p ++ [0], NT "SELBRI" cc) (before T p) (after T p) []) in R.
    destruct (all_ok T PT CT (depth (p ++ [0], NT "SELBRI" cc))) as (_ & _ & _ & _ & _ & _ & HS & _).
    rewrite (HS _ _ _ _ _ _ (sits_child _ _ _ _ 0 _ SI eq_refl) R e). unfold X. split.
    - intro Q. exists p. split; [eapply l_here; exact SI | exact Q].
    - intros (m & L & Q). inversion L as [p0 ch0 E1|p0 k0 ch0 i c m0 E1 B1 N LD1]; subst; [exact Q |]. exfalso. unfold sits in SI. cbn [fst snd] in SI. rewrite SI in E1. injection E1 as <- _. discriminate B1.
  Qed.

  (* one child to go down to *)
  Lemma down_one (p : list nat) k ch L K i cc e : sits T (p, NT k ch) -> bridi_part k = true -> k <> "AUGMENTED" ->
    forallb (fun k' => if on_way k' then has k' L else true) (kids k) = true -> In K L -> only K ch i cc ->
    (forall K', In K' L -> K' = K \/ forall j c', nth_error ch j <> Some (NT K' c')) -> (X p e <-> X (p ++ [i]) e).
  Proof.
    intros SI B A C IK O NO. rewrite (X_via L _ _ _ _ SI B A C). rewrite Exists_exists. split.
    - intros (K' & I & V). destruct (NO _ I) as [->|N]; [apply (xvia_only _ _ _ _ _ _ O); exact V |]. destruct (xvia_none _ _ _ _ N V).
    - intro Q. exists K. split; [exact IK |]. apply (xvia_only _ _ _ _ _ _ O). exact Q.
  Qed.
  Lemma single_only k cc : only k [NT k cc] 0 cc.
  Proof.
    intros j c'. split; [| intros [-> ->]; reflexivity]. intro N. destruct j as [|[|j]]; try discriminate N. cbn [nth_error] in N. injection N as ->. auto.
  Qed.
  Lemma single_none K k cc : K <> k -> forall j c', nth_error [NT k cc] j <> Some (NT K c').
  Proof. intros NK j c' N. destruct j as [|[|j]]; try discriminate N. cbn [nth_error] in N. injection N as N _. congruence. Qed.
  Lemma down_single (p : list nat) k L K cc e : sits T (p, NT k [NT K cc]) -> bridi_part k = true -> k <> "AUGMENTED" ->
    forallb (fun k' => if on_way k' then has k' L else true) (kids k) = true -> In K L -> K <> "TERMS" -> K <> "TAIL_TERMS" ->
    (X p e <-> X (p ++ [0]) e) /\ before T (p ++ [0]) = before T p /\ after T (p ++ [0]) = after T p.
  Proof.
    intros SI B A C IK N1 N2. split.
    - eapply down_one; [exact SI | exact B | exact A | exact C | exact IK | apply single_only |]. intros K' _. destruct (string_dec K' K) as [E|E]; [left; exact E | right; apply single_none; exact E].
    - apply (plain_kid p k [NT K cc] 0 SI B); apply single_none; congruence.
  Qed.

  Definition ball (f : nat) : Prop :=
    bright (subsentence f) "SUBSENTENCE" /\ bright (bridi_tail_3 f) "BRIDI_TAIL_3" /\ bright (gek_sentence f) "GEK_SENTENCE" /\
    bright (bridi_tail_2 f) "BRIDI_TAIL_2" /\ bright (bridi_tail_1 f) "BRIDI_TAIL_1" /\ bright (bridi_tail f) "BRIDI_TAIL".

  Lemma subsentence_ok f : ball f -> bright (subsentence (S f)) "SUBSENTENCE".
  Proof.
    intros (H & _ & _ & _ & _ & HB) p ch es SI R e. pose proof (node_parsed _ _ _ SI ltac:(naug)) as PC.
    destruct (alt _ _ _ PC ltac:(naug) subsentence_shape) as (ss & F & SH).
    change (subsentence (S f) (p, NT "SUBSENTENCE" ch) (before T p) (after T p)) with
      (if Nat.eqb (List.length ch) 2 then do c <- child_ref (p, NT "SUBSENTENCE" ch) 1; subsentence f c (before T p) (after T p)
       else
        do s <- child_ref (p, NT "SUBSENTENCE" ch) 0;
        do _ <- type_check s "SENTENCE";
        let b := sentence_body s in
        do terms <- find_child b 1 "TERMS";
        do bt <- find_child b 1 "BRIDI_TAIL"; do bt <- asserted bt;
        match terms with
        | Some t => do v <- tv_build t; do pre <- tv_catenate (before T p) v; bridi_tail f bt pre (after T p)
        | None => bridi_tail f bt (before T p) (after T p)
        end) in R.
    destruct ss as [|[k|t|t] [|[k'|t'|t'] [|s' l]]]; try discriminate SH.
    - apply String.eqb_eq in SH. subst k. destruct (fits1 _ _ F) as (cc & ->). cbn [List.length Nat.eqb] in R.
      change (child_ref (p, NT "SUBSENTENCE" [NT "SENTENCE" cc]) 0) with (Ok (A := here) (p ++ [0], NT "SENTENCE" cc)) in R. cbn [obind] in R.
      change (type_check (p ++ [0], NT "SENTENCE" cc) "SENTENCE") with (Ok tt) in R. cbn [obind] in R. cbn zeta in R.
      destruct (down_single p "SUBSENTENCE" ["SENTENCE"; "SUBSENTENCE"] "SENTENCE" cc e SI eq_refl ltac:(naug)) as (XE & BE & AE);
        [vm_compute; reflexivity | left; reflexivity | discriminate | discriminate |].
      destruct (sentence_spec (p ++ [0]) cc e (sits_child _ _ _ _ 0 _ SI eq_refl)) as (q & dd & F1 & S1 & _ & XB & AB & TB).
      rewrite XE, XB. rewrite AE in AB. rewrite BE in TB.
      destruct TB as [[FT EB]|(t & FT & NTT & PTT & EB)]; rewrite FT in R; cbn [obind] in R; rewrite F1 in R; cbn [obind asserted] in R.
      + rewrite <- EB, <- AB in R. apply (HB _ _ _ S1 R e).
      + destruct (tv_build_spec t NTT PTT) as [TS _]. cbn zeta in TS. rewrite TS in R. destruct (small _); [| discriminate R]. cbn [obind] in R. oinv R. apply catenate_inv in E. subst a.
        assert (R' : bridi_tail f (q, NT "BRIDI_TAIL" dd) (before T q) (after T q) = Ok es) by (rewrite EB, AB; exact R). apply (HB _ _ _ S1 R' e).
    - apply andb_true_iff in SH. destruct SH as [S1 S2]. apply String.eqb_eq in S1, S2. subst k k'. destruct (fits2 _ _ _ F) as (cc & dd & ->). cbn [List.length Nat.eqb] in R.
      change (child_ref (p, NT "SUBSENTENCE" [NT "PRENEX" cc; NT "SUBSENTENCE" dd]) 1) with (Ok (A := here) (p ++ [1], NT "SUBSENTENCE" dd)) in R. cbn [obind] in R.
      assert (NO : forall K, K <> "PRENEX" -> K <> "SUBSENTENCE" -> forall j c', nth_error [NT "PRENEX" cc; NT "SUBSENTENCE" dd] j <> Some (NT K c')).
      { intros K N1 N2 j c' N. destruct j as [|[|[|j]]]; cbn [nth_error] in N; try discriminate N; injection N as N _; congruence. }
      destruct (plain_kid p "SUBSENTENCE" [NT "PRENEX" cc; NT "SUBSENTENCE" dd] 1 SI eq_refl) as [BE AE]; [apply NO; discriminate | apply NO; discriminate |].
      rewrite <- BE, <- AE in R. rewrite (H _ _ _ (sits_child _ _ _ _ 1 _ SI eq_refl) R e). symmetry.
      eapply (down_one p "SUBSENTENCE" _ ["SENTENCE"; "SUBSENTENCE"] "SUBSENTENCE" 1 dd); [exact SI | reflexivity | naug | vm_compute; reflexivity | right; left; reflexivity | |].
      + intros j c'. split; [| intros [-> ->]; reflexivity]. intro N. destruct j as [|[|[|j]]]; cbn [nth_error] in N; try discriminate N. injection N as ->. auto.
      + intros K' [<-|[<-|[]]]; [right; apply NO; discriminate | left; reflexivity].
  Qed.

  Lemma tail_kid (p : list nat) k ch ss i : sits T (p, NT k ch) -> k <> "AUGMENTED" -> bridi_part k = true -> fitsx ss ch -> count "TERMS" ss = 0 -> count "TAIL_TERMS" ss <= 1 ->
    before T (p ++ [i]) = before T p /\ forall post', with_tail (p, NT k ch) (after T p) = Ok post' -> post' = after T (p ++ [i]).
  Proof.
    intros SI A B F C1 C2. rewrite (before_kid _ _ _ _ SI B), (after_kid _ _ _ _ SI B). destruct (find_no "TERMS" ss p k ch ltac:(naug) F C1) as (_ & NO).
    rewrite (kid_terms_none "TERMS" p ch) by (discriminate || assumption). cbn [sorts flat_map]. rewrite app_nil_r. split; [reflexivity |].
    intros post' R. eapply with_tail_inv; [exact (node_parsed _ _ _ SI A) | exact A | exact F | exact C2 | exact R].
  Qed.

  Lemma bt3_ok f : ball f -> bright (bridi_tail_3 (S f)) "BRIDI_TAIL_3".
  Proof.
    intros (_ & _ & HG & _) p ch es SI R e. pose proof (node_parsed _ _ _ SI ltac:(naug)) as PC.
    destruct (alt _ _ _ PC ltac:(naug) bt3_shape) as (ss & F & SH).
    change (bridi_tail_3 (S f) (p, NT "BRIDI_TAIL_3" ch) (before T p) (after T p)) with
      (do c1 <- child_ref (p, NT "BRIDI_TAIL_3" ch) 0;
       do ty <- type_of c1;
       if String.eqb ty "MAIN_SELBRI" then do post <- with_tail (p, NT "BRIDI_TAIL_3" ch) (after T p); main_selbri c1 (before T p) post
       else do _ <- type_check c1 "GEK_SENTENCE"; gek_sentence f c1 (before T p) (after T p)) in R.
    assert (Q : ss = [SN "GEK_SENTENCE"] \/ exists l, ss = SN "MAIN_SELBRI" :: l /\ counts [("TERMS", 0); ("GEK_SENTENCE", 0); ("MAIN_SELBRI", 0)] l = true /\ count "TAIL_TERMS" l <= 1).
    { destruct ss as [|[k|t|t] l]; try discriminate SH. destruct l as [|s' l].
      - apply has_In in SH. destruct SH as [<-|[<-|[]]]; [left; reflexivity | right; exists []; auto].
      - right. destruct (String.eqb_spec k "MAIN_SELBRI") as [->|]; [| discriminate SH].
        exists (s' :: l). split; [reflexivity |]. destruct (counts _ _); [split; [reflexivity | apply Nat.leb_le; exact SH] | discriminate SH]. }
    destruct Q as [->|(l & -> & C & CTT)].
    - destruct (fits1 _ _ F) as (cc & ->).
      change (child_ref (p, NT "BRIDI_TAIL_3" [NT "GEK_SENTENCE" cc]) 0) with (Ok (A := here) (p ++ [0], NT "GEK_SENTENCE" cc)) in R. cbn [obind type_of snd] in R.
      cbn [String.eqb Ascii.eqb Bool.eqb] in R. change (type_check (p ++ [0], NT "GEK_SENTENCE" cc) "GEK_SENTENCE") with (Ok tt) in R. cbn [obind] in R.
      destruct (down_single p "BRIDI_TAIL_3" ["MAIN_SELBRI"; "GEK_SENTENCE"] "GEK_SENTENCE" cc e SI eq_refl ltac:(naug)) as (XE & BE & AE);
        [vm_compute; reflexivity | right; left; reflexivity | discriminate | discriminate |].
      rewrite XE. rewrite <- BE, <- AE in R. apply (HG _ _ _ (sits_child _ _ _ _ 0 _ SI eq_refl) R e).
    - assert (CM : count "MAIN_SELBRI" (SN "MAIN_SELBRI" :: l) = 1) by (cbn [count is_SN]; rewrite (counts_in _ _ C "MAIN_SELBRI" 0) by (cbn [In]; auto); reflexivity).
      assert (C0 : count "TERMS" (SN "MAIN_SELBRI" :: l) = 0) by (cbn [count is_SN]; rewrite (counts_in _ _ C "TERMS" 0) by (cbn [In]; auto); reflexivity).
      assert (CG : count "GEK_SENTENCE" (SN "MAIN_SELBRI" :: l) = 0) by (cbn [count is_SN]; rewrite (counts_in _ _ C "GEK_SENTENCE" 0) by (cbn [In]; auto); reflexivity).
      assert (CL : count "TAIL_TERMS" (SN "MAIN_SELBRI" :: l) <= 1) by (cbn [count is_SN]; exact CTT).
      destruct (find_one "MAIN_SELBRI" _ p "BRIDI_TAIL_3" ch ltac:(naug) F CM) as (i & cc & _ & O). destruct (find_no "GEK_SENTENCE" _ p "BRIDI_TAIL_3" ch ltac:(naug) F CG) as (_ & NO).
      inversion F as [|ty ss0 c0 cs F'| | |]; subst. assert (I0 : 0 = i /\ c0 = cc) by (apply O; reflexivity). destruct I0 as [<- <-].
      change (child_ref (p, NT "BRIDI_TAIL_3" (NT "MAIN_SELBRI" c0 :: cs)) 0) with (Ok (A := here) (p ++ [0], NT "MAIN_SELBRI" c0)) in R. cbn [obind type_of snd] in R.
      rewrite String.eqb_refl in R. oinv R. destruct (tail_kid p _ _ _ 0 SI ltac:(naug) eq_refl F C0 CL) as [BE AE]. apply AE in E. subst a. rewrite <- BE in R.
      rewrite (main_ok _ _ _ (sits_child _ _ _ _ 0 _ SI eq_refl) R e). symmetry.
      eapply (down_one p "BRIDI_TAIL_3" _ ["MAIN_SELBRI"; "GEK_SENTENCE"] "MAIN_SELBRI" 0); [exact SI | reflexivity | naug | vm_compute; reflexivity | left; reflexivity | exact O |].
      intros K' [<-|[<-|[]]]; [left; reflexivity | right; exact NO].
  Qed.

  Lemma xvia_two p e K ch i cc j dd : nth_error ch i = Some (NT K cc) -> nth_error ch j = Some (NT K dd) ->
    (forall n ee, nth_error ch n = Some (NT K ee) -> n = i /\ ee = cc \/ n = j /\ ee = dd) -> (xvia p e ch K <-> X (p ++ [i]) e \/ X (p ++ [j]) e).
  Proof.
    intros N1 N2 U. unfold xvia. split.
    - intros (n & ee & N & Q). destruct (U _ _ N) as [[-> _]|[-> _]]; auto.
    - intros [Q|Q]; eauto.
  Qed.
  Lemma no_sub (p : list nat) (k : string) ch ss K : fitsx ss ch -> K <> "AUGMENTED" -> count K ss = 0 -> forall j cc, nth_error ch j <> Some (NT K cc).
  Proof. intros F A C. apply (find_no K ss p k ch A F C). Qed.

  Lemma gek_ok f : ball f -> bright (gek_sentence (S f)) "GEK_SENTENCE".
  Proof.
    intros (H & _ & HG & _) p ch es SI R e. pose proof (node_parsed _ _ _ SI ltac:(naug)) as PC.
    destruct (alt _ _ _ PC ltac:(naug) gek_shape) as (ss & F & SH).
    change (gek_sentence (S f) (p, NT "GEK_SENTENCE" ch) (before T p) (after T p)) with
     (do c <- child_ref (p, NT "GEK_SENTENCE" ch) 0;
      if is_nt "GEK" (snd c) then
        do s1 <- find_child (p, NT "GEK_SENTENCE" ch) 1 "SUBSENTENCE"; do s2 <- find_child (p, NT "GEK_SENTENCE" ch) 2 "SUBSENTENCE";
        do s1 <- asserted s1; do s2 <- asserted s2;
        do post <- with_tail (p, NT "GEK_SENTENCE" ch) (after T p);
        do a <- subsentence f s1 (before T p) post; do b <- subsentence f s2 (before T p) post; Ok (a ++ b)
      else do c <- find_child (p, NT "GEK_SENTENCE" ch) 1 "GEK_SENTENCE"; do c <- deref c; gek_sentence f c (before T p) (after T p)) in R.
    assert (Q : exists c rest, ch = c :: rest /\
      (is_nt "GEK" c = true /\ fine [("SUBSENTENCE", 2); ("GEK_SENTENCE", 0); ("TERMS", 0)] ss = true \/
       is_nt "GEK" c = false /\ counts [("SUBSENTENCE", 0); ("GEK_SENTENCE", 1); ("TERMS", 0); ("TAIL_TERMS", 0)] ss = true)).
    { destruct ss as [|[k|t|t] l]; try discriminate SH.
      - inversion F as [|ty ss0 c0 cs F'| | |]; subst. exists (NT k c0), cs. split; [reflexivity |]. cbn [is_nt]. destruct (String.eqb k "GEK"); auto.
      - destruct (fitsx_cons_word _ _ _ F) as (c & rest & -> & Wd & _). exists c, rest. split; [reflexivity |]. right. split; [| exact SH]. apply (wordlike_not t c "GEK" Wd). discriminate. }
    destruct Q as (c & rest & E & Q). change (child_ref (p, NT "GEK_SENTENCE" ch) 0) with (match nth_error ch 0 with Some c => Ok (A := here) (p ++ [0], c) | None => Abort end) in R.
    assert (N0 : nth_error ch 0 = Some c) by (rewrite E; reflexivity). rewrite N0 in R. cbn [obind snd] in R. clear E N0.
    rewrite (X_via ["SUBSENTENCE"; "GEK_SENTENCE"] _ _ _ _ SI eq_refl ltac:(naug)) by (vm_compute; reflexivity). rewrite !Exists_cons, Exists_nil.
    destruct Q as [[G Q]|[G C]]; rewrite G in R.
    - apply fine_inv in Q. destruct Q as (_ & C & CTT).
      assert (C2 : count "SUBSENTENCE" ss = 2) by of_count C. assert (C0 : count "TERMS" ss = 0) by of_count C. assert (CG : count "GEK_SENTENCE" ss = 0) by of_count C.
      destruct (find_two "SUBSENTENCE" ss p "GEK_SENTENCE" ch ltac:(naug) F C2) as (i & cc & j & dd & F1 & F2 & N1 & N2 & U).
      rewrite F1 in R. cbn [obind] in R. rewrite F2 in R. cbn [obind asserted] in R. oinv R. oinv R. oinv R. injection R as <-.
      destruct (tail_kid p _ _ _ i SI ltac:(naug) eq_refl F C0 CTT) as [BE AE]. destruct (tail_kid p _ _ _ j SI ltac:(naug) eq_refl F C0 CTT) as [BE' AE'].
      pose proof (AE _ E) as X1. pose proof (AE' _ E) as X2. rewrite X1, <- BE in E0. rewrite X2, <- BE' in E1.
      rewrite in_app_iff, (H _ _ _ (sits_child _ _ _ _ _ _ SI N1) E0 e), (H _ _ _ (sits_child _ _ _ _ _ _ SI N2) E1 e).
      rewrite (xvia_two _ _ _ _ _ _ _ _ N1 N2 U). pose proof (xvia_none p e _ _ (no_sub p "" ch ss "GEK_SENTENCE" F ltac:(naug) CG)). tauto.
    - assert (C1 : count "GEK_SENTENCE" ss = 1) by of_count C. assert (C0 : count "TERMS" ss = 0) by of_count C. assert (CS : count "SUBSENTENCE" ss = 0) by of_count C.
      assert (CTT : count "TAIL_TERMS" ss = 0) by of_count C.
      destruct (find_one "GEK_SENTENCE" ss p "GEK_SENTENCE" ch ltac:(naug) F C1) as (i & cc & F1 & O). rewrite F1 in R. cbn [obind deref] in R.
      destruct (plain_kid p _ _ i SI eq_refl (no_sub p "" ch ss "TERMS" F ltac:(naug) C0) (no_sub p "" ch ss "TAIL_TERMS" F ltac:(naug) CTT)) as [BE AE]. rewrite <- BE, <- AE in R.
      rewrite (HG _ _ _ (kid_sits _ _ _ _ _ _ SI O) R e), (xvia_only _ _ _ _ _ _ O). pose proof (xvia_none p e _ _ (no_sub p "" ch ss "SUBSENTENCE" F ltac:(naug) CS)). tauto.
  Qed.

  Lemma single_or k l ss (Q : bool) : (match ss with [SN k'] => String.eqb k' k | _ => fine l ss end) = true -> ss = [SN k] \/ fine l ss = true.
  Proof. destruct ss as [|[k'|t|t] [|s' l']]; auto. intro H. apply String.eqb_eq in H. subst k'. auto. Qed.

  Lemma bt2_ok f : ball f -> bright (bridi_tail_2 (S f)) "BRIDI_TAIL_2".
  Proof.
    intros (_ & H3 & _ & H2 & _) p ch es SI R e. pose proof (node_parsed _ _ _ SI ltac:(naug)) as PC.
    destruct (alt _ _ _ PC ltac:(naug) bt2_shape) as (ss & F & SH). apply (single_or "BRIDI_TAIL_3") in SH; [| exact true].
    change (bridi_tail_2 (S f) (p, NT "BRIDI_TAIL_2" ch) (before T p) (after T p)) with
      (if Nat.eqb (List.length ch) 1 then do c <- child_ref (p, NT "BRIDI_TAIL_2" ch) 0; bridi_tail_3 f c (before T p) (after T p)
       else
        do a <- find_child (p, NT "BRIDI_TAIL_2" ch) 1 "BRIDI_TAIL_2"; do a <- asserted a;
        do b <- find_child (p, NT "BRIDI_TAIL_2" ch) 2 "BRIDI_TAIL_2"; do b <- asserted b;
        do post <- with_tail (p, NT "BRIDI_TAIL_2" ch) (after T p);
        do x <- bridi_tail_2 f a (before T p) post; do y <- bridi_tail_2 f b (before T p) post; Ok (x ++ y)) in R.
    destruct SH as [->|Q].
    - destruct (fits1 _ _ F) as (cc & ->). cbn [List.length Nat.eqb] in R.
      change (child_ref (p, NT "BRIDI_TAIL_2" [NT "BRIDI_TAIL_3" cc]) 0) with (Ok (A := here) (p ++ [0], NT "BRIDI_TAIL_3" cc)) in R. cbn [obind] in R.
      destruct (down_single p "BRIDI_TAIL_2" ["BRIDI_TAIL_2"; "BRIDI_TAIL_3"] "BRIDI_TAIL_3" cc e SI eq_refl ltac:(naug)) as (XE & BE & AE);
        [vm_compute; reflexivity | right; left; reflexivity | discriminate | discriminate |].
      rewrite XE. rewrite <- BE, <- AE in R. apply (H3 _ _ _ (sits_child _ _ _ _ 0 _ SI eq_refl) R e).
    - apply fine_inv in Q. destruct Q as (L & C & CTT). rewrite (more _ _ F L) in R.
      assert (C2 : count "BRIDI_TAIL_2" ss = 2) by of_count C. assert (C0 : count "TERMS" ss = 0) by of_count C. assert (CG : count "BRIDI_TAIL_3" ss = 0) by of_count C.
      destruct (find_two "BRIDI_TAIL_2" ss p "BRIDI_TAIL_2" ch ltac:(naug) F C2) as (i & cc & j & dd & F1 & F2 & N1 & N2 & U).
      rewrite F1 in R. cbn [obind asserted] in R. rewrite F2 in R. cbn [obind asserted] in R. oinv R. oinv R. oinv R. injection R as <-.
      destruct (tail_kid p _ _ _ i SI ltac:(naug) eq_refl F C0 CTT) as [BE AE]. destruct (tail_kid p _ _ _ j SI ltac:(naug) eq_refl F C0 CTT) as [BE' AE'].
      pose proof (AE _ E) as X1. pose proof (AE' _ E) as X2. rewrite X1, <- BE in E0. rewrite X2, <- BE' in E1.
      rewrite (X_via ["BRIDI_TAIL_2"; "BRIDI_TAIL_3"] _ _ _ _ SI eq_refl ltac:(naug)) by (vm_compute; reflexivity). rewrite !Exists_cons, Exists_nil.
      rewrite in_app_iff, (H2 _ _ _ (sits_child _ _ _ _ _ _ SI N1) E0 e), (H2 _ _ _ (sits_child _ _ _ _ _ _ SI N2) E1 e).
      rewrite (xvia_two _ _ _ _ _ _ _ _ N1 N2 U). pose proof (xvia_none p e _ _ (no_sub p "" ch ss "BRIDI_TAIL_3" F ltac:(naug) CG)). tauto.
  Qed.
  Lemma bt1_ok f : ball f -> bright (bridi_tail_1 (S f)) "BRIDI_TAIL_1".
  Proof.
    intros (_ & _ & _ & H2 & H1 & _) p ch es SI R e. pose proof (node_parsed _ _ _ SI ltac:(naug)) as PC.
    destruct (alt _ _ _ PC ltac:(naug) bt1_shape) as (ss & F & SH). apply (single_or "BRIDI_TAIL_2") in SH; [| exact true].
    change (bridi_tail_1 (S f) (p, NT "BRIDI_TAIL_1" ch) (before T p) (after T p)) with
      (if Nat.eqb (List.length ch) 1 then do c <- child_ref (p, NT "BRIDI_TAIL_1" ch) 0; bridi_tail_2 f c (before T p) (after T p)
       else
        do a <- find_child (p, NT "BRIDI_TAIL_1" ch) 1 "BRIDI_TAIL_1"; do a <- asserted a;
        do b <- find_child (p, NT "BRIDI_TAIL_1" ch) 1 "BRIDI_TAIL_2"; do b <- asserted b;
        do post <- with_tail (p, NT "BRIDI_TAIL_1" ch) (after T p);
        do x <- bridi_tail_1 f a (before T p) post; do y <- bridi_tail_2 f b (before T p) post; Ok (x ++ y)) in R.
    destruct SH as [->|Q].
    - destruct (fits1 _ _ F) as (cc & ->). cbn [List.length Nat.eqb] in R.
      change (child_ref (p, NT "BRIDI_TAIL_1" [NT "BRIDI_TAIL_2" cc]) 0) with (Ok (A := here) (p ++ [0], NT "BRIDI_TAIL_2" cc)) in R. cbn [obind] in R.
      destruct (down_single p "BRIDI_TAIL_1" ["BRIDI_TAIL_1"; "BRIDI_TAIL_2"] "BRIDI_TAIL_2" cc e SI eq_refl ltac:(naug)) as (XE & BE & AE);
        [vm_compute; reflexivity | right; left; reflexivity | discriminate | discriminate |].
      rewrite XE. rewrite <- BE, <- AE in R. apply (H2 _ _ _ (sits_child _ _ _ _ 0 _ SI eq_refl) R e).
    - apply fine_inv in Q. destruct Q as (L & C & CTT). rewrite (more _ _ F L) in R.
      assert (C1 : count "BRIDI_TAIL_1" ss = 1) by of_count C. assert (C0 : count "TERMS" ss = 0) by of_count C. assert (C2 : count "BRIDI_TAIL_2" ss = 1) by of_count C.
      destruct (find_one "BRIDI_TAIL_1" ss p "BRIDI_TAIL_1" ch ltac:(naug) F C1) as (i & cc & F1 & O1).
      destruct (find_one "BRIDI_TAIL_2" ss p "BRIDI_TAIL_1" ch ltac:(naug) F C2) as (j & dd & F2 & O2).
      rewrite F1 in R. cbn [obind asserted] in R. rewrite F2 in R. cbn [obind asserted] in R. oinv R. oinv R. oinv R. injection R as <-.
      destruct (tail_kid p _ _ _ i SI ltac:(naug) eq_refl F C0 CTT) as [BE AE]. destruct (tail_kid p _ _ _ j SI ltac:(naug) eq_refl F C0 CTT) as [BE' AE'].
      pose proof (AE _ E) as X1. pose proof (AE' _ E) as X2. rewrite X1, <- BE in E0. rewrite X2, <- BE' in E1.
      rewrite (X_via ["BRIDI_TAIL_1"; "BRIDI_TAIL_2"] _ _ _ _ SI eq_refl ltac:(naug)) by (vm_compute; reflexivity). rewrite !Exists_cons, Exists_nil.
      rewrite in_app_iff, (H1 _ _ _ (kid_sits _ _ _ _ _ _ SI O1) E0 e), (H2 _ _ _ (kid_sits _ _ _ _ _ _ SI O2) E1 e).
      rewrite (xvia_only _ _ _ _ _ _ O1), (xvia_only _ _ _ _ _ _ O2). tauto.
  Qed.
  Lemma bt_ok f : ball f -> bright (bridi_tail (S f)) "BRIDI_TAIL".
  Proof.
    intros (_ & _ & _ & _ & H1 & H0) p ch es SI R e. pose proof (node_parsed _ _ _ SI ltac:(naug)) as PC.
    destruct (alt _ _ _ PC ltac:(naug) bt_shape) as (ss & F & SH). apply (single_or "BRIDI_TAIL_1") in SH; [| exact true].
    change (bridi_tail (S f) (p, NT "BRIDI_TAIL" ch) (before T p) (after T p)) with
      (if Nat.eqb (List.length ch) 1 then do c <- child_ref (p, NT "BRIDI_TAIL" ch) 0; bridi_tail_1 f c (before T p) (after T p)
       else
        do b <- find_child (p, NT "BRIDI_TAIL" ch) 1 "BRIDI_TAIL"; do b <- asserted b;
        do a <- find_child (p, NT "BRIDI_TAIL" ch) 1 "BRIDI_TAIL_1"; do a <- asserted a;
        do t <- tail_of (p, NT "BRIDI_TAIL" ch);
        match t with
        | None => UB UB_uninit
        | Some v =>
            do post <- tv_catenate v (after T p);
            do x <- bridi_tail_1 f a (before T p) post; do y <- bridi_tail f b (before T p) post; Ok (x ++ y)
        end) in R.
    destruct SH as [->|Q].
    - destruct (fits1 _ _ F) as (cc & ->). cbn [List.length Nat.eqb] in R.
      change (child_ref (p, NT "BRIDI_TAIL" [NT "BRIDI_TAIL_1" cc]) 0) with (Ok (A := here) (p ++ [0], NT "BRIDI_TAIL_1" cc)) in R. cbn [obind] in R.
      destruct (down_single p "BRIDI_TAIL" ["BRIDI_TAIL"; "BRIDI_TAIL_1"] "BRIDI_TAIL_1" cc e SI eq_refl ltac:(naug)) as (XE & BE & AE);
        [vm_compute; reflexivity | right; left; reflexivity | discriminate | discriminate |].
      rewrite XE. rewrite <- BE, <- AE in R. apply (H1 _ _ _ (sits_child _ _ _ _ 0 _ SI eq_refl) R e).
    - apply fine_inv in Q. destruct Q as (L & C & CTT). rewrite (more _ _ F L) in R.
      assert (C1 : count "BRIDI_TAIL_1" ss = 1) by of_count C. assert (C0 : count "TERMS" ss = 0) by of_count C. assert (C2 : count "BRIDI_TAIL" ss = 1) by of_count C.
      destruct (find_one "BRIDI_TAIL_1" ss p "BRIDI_TAIL" ch ltac:(naug) F C1) as (i & cc & F1 & O1).
      destruct (find_one "BRIDI_TAIL" ss p "BRIDI_TAIL" ch ltac:(naug) F C2) as (j & dd & F2 & O2).
      rewrite F2 in R. cbn [obind asserted] in R. rewrite F1 in R. cbn [obind asserted] in R. oinv R. destruct a as [v|]; [| discriminate R]. oinv R. oinv R. oinv R. injection R as <-.
      destruct (tail_kid p _ _ _ i SI ltac:(naug) eq_refl F C0 CTT) as [BE AE]. destruct (tail_kid p _ _ _ j SI ltac:(naug) eq_refl F C0 CTT) as [BE' AE'].
      assert (WT : with_tail (p, NT "BRIDI_TAIL" ch) (after T p) = Ok a) by (unfold with_tail; rewrite E; cbn [obind]; exact E0).
      pose proof (AE _ WT) as X1. pose proof (AE' _ WT) as X2. rewrite X1, <- BE in E1. rewrite X2, <- BE' in E2.
      rewrite (X_via ["BRIDI_TAIL"; "BRIDI_TAIL_1"] _ _ _ _ SI eq_refl ltac:(naug)) by (vm_compute; reflexivity). rewrite !Exists_cons, Exists_nil.
      rewrite in_app_iff, (H1 _ _ _ (kid_sits _ _ _ _ _ _ SI O1) E1 e), (H0 _ _ _ (kid_sits _ _ _ _ _ _ SI O2) E2 e).
      rewrite (xvia_only _ _ _ _ _ _ O1), (xvia_only _ _ _ _ _ _ O2). tauto.
  Qed.
  Theorem ball_ok f : ball f.
  Proof.
    induction f as [|f IH].
    - unfold ball, bright. repeat split; try (intros; discriminate); match goal with H : _ = Ok _ |- _ => discriminate H end.
    - split; [apply subsentence_ok; exact IH |]. split; [apply bt3_ok; exact IH |]. split; [apply gek_ok; exact IH |]. split; [apply bt2_ok; exact IH |].
      split; [apply bt1_ok; exact IH | apply bt_ok; exact IH].
  Qed.
End BRIDI.
