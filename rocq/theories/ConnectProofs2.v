(* Connectives in parse trees: the constituents that the passes look for are there. *)
From Coq Require Import String Ascii List NArith Bool Arith Lia.
From Verif Require Import Base TokData CmavoData TokModel StreamModel TreeModel TreeOutModel ErasureProofs GrammarData GramModel GramSpec
  GramProofs PassProofs2 ConnectModel ConnectSpec ConnectProofs.
Import ListNotations.
Open Scope string_scope.
Open Scope list_scope.

(* selma'o whose words are always cmavo, and never indicators *)
Definition plain (s : tok) : bool :=
  negb (existsb (tok_eqb s) [T_BAhE; T_UI; T_CAI; T_Y; T_DAhO; T_FUhO; T_ZOI; T_ZO; T_LOhU; T_ZEI; T_BU; T_BRIVLA; T_CMENE]).

Lemma attach_other x s : attachable x = true -> plain s = true -> cmtest x s = false.
Proof.
  unfold attachable, cmtest, plain. destruct (dat x); try reflexivity. intros A P.
  destruct (tok_eqb selmao s) eqn:E; [| reflexivity]. apply tok_eqb_eq in E. subst. apply negb_true_iff in P.
  cbn [existsb] in A, P. repeat rewrite orb_false_iff in P. repeat rewrite orb_true_iff in A.
  destruct P as (P1 & P2 & P3 & P4 & P5 & P6 & _). destruct A as [A|[A|[A|[A|[A|[A|A]]]]]]; congruence.
Qed.
Lemma word_test t x s : is_word t x -> plain s = true -> cmtest x s = tok_eqb t s.
Proof.
  intros W P. destruct (tok_eqb t s) eqn:E.
  - apply tok_eqb_eq in E. subst t. apply word_cm; [exact W | ..]; intros ->; discriminate P.
  - pose proof (word_value _ _ W) as V. unfold value_of in V. unfold cmtest. destruct (dat x); try reflexivity.
    match type of V with (if ?b then _ else _) = _ => destruct b; [discriminate V |] end. injection V as ->. exact E.
Qed.

Lemma candidates_cons c ch s : cmavo_candidates (c :: ch) s = cmavo_candidates [c] s ++ cmavo_candidates ch s.
Proof. unfold cmavo_candidates. cbn [flat_map]. rewrite app_nil_r. reflexivity. Qed.
Lemma ornament_cands us s : Forall ornament us -> plain s = true ->
  flat_map (fun c => match c with Leaf x => if cmtest x s then [x] else [] | NT _ _ => [] end) us = [].
Proof.
  intros O P. induction O as [|u us O OS IH]; [reflexivity |]. cbn [flat_map]. rewrite IH, app_nil_r.
  destruct u as [x|]; [| reflexivity]. rewrite (attach_other x s O P). reflexivity.
Qed.
Lemma word_cands t c s : wordlike t c -> plain s = true ->
  exists x, is_word t x /\ cmavo_candidates [c] s = if tok_eqb t s then [x] else [].
Proof.
  intros W P. destruct (wordlike_inv _ _ W) as [(x & X & ->)|(bs & x & us & B & X & U & ->)]; exists x; (split; [exact X |]).
  - unfold cmavo_candidates. cbn [flat_map]. rewrite app_nil_r, (word_test t x s X P). reflexivity.
  - unfold cmavo_candidates. cbn [flat_map]. rewrite app_nil_r, String.eqb_refl, flat_map_app, (ornament_cands bs s B P).
    cbn [flat_map app]. rewrite (ornament_cands us s U P), app_nil_r, (word_test t x s X P). reflexivity.
Qed.

(* how often a production has a selma'o; not as an elidable terminator *)
Definition count (s : tok) (ss : list sym) : nat :=
  List.length (filter (fun y => match y with ST t => tok_eqb t s | _ => false end) ss).
Definition firm (s : tok) (ss : list sym) : bool :=
  forallb (fun y => match y with SE t => negb (tok_eqb t s) | SN k => negb (String.eqb k "AUGMENTED") | ST _ => true end) ss.

Lemma cands_count s ss ch : plain s = true -> fitsx ss ch -> firm s ss = true ->
  List.length (cmavo_candidates ch s) = count s ss /\ Forall (is_word s) (cmavo_candidates ch s).
Proof.
  intros P F. induction F as [|ty ss ch cs F IH|t x ss cs W F IH|t ss cs F IH|t x ss cs W F IH]; intro M.
  - split; [reflexivity | constructor].
  - rewrite candidates_cons. unfold firm in M. cbn [forallb] in M. apply andb_true_iff in M. destruct M as [M1 M].
    destruct (IH M) as [L A]. apply negb_true_iff in M1.
    replace (cmavo_candidates [NT ty ch] s) with (@nil node) by (unfold cmavo_candidates; cbn [flat_map]; rewrite M1; reflexivity).
    unfold count in *. cbn [filter app]. auto.
  - rewrite candidates_cons. destruct (IH M) as [L A]. destruct (word_cands t x s W P) as (y & Y & ->).
    unfold count in *. cbn [filter]. destruct (tok_eqb t s) eqn:E; [| auto]. apply tok_eqb_eq in E. subst t.
    cbn [app List.length]. rewrite L. split; [reflexivity | constructor; assumption].
  - unfold firm in M. cbn [forallb] in M. apply andb_true_iff in M. destruct M as [_ M]. unfold count. cbn [filter]. apply IH. exact M.
  - unfold firm in M. cbn [forallb] in M. apply andb_true_iff in M. destruct M as [M1 M]. destruct (IH M) as [L A].
    rewrite candidates_cons. destruct (word_cands t x s W P) as (y & Y & ->). apply negb_true_iff in M1. rewrite M1.
    unfold count in *. cbn [filter app]. auto.
Qed.

Lemma parsed_prod ty ch : parsed (NT ty ch) -> ty <> "AUGMENTED" -> exists ss, In ss (alternatives ty) /\ fitsx ss ch.
Proof. intros P A. apply parsed_NT in P. destruct P as [X|[S _]]; [contradiction | exact S]. Qed.
Lemma alts ty f : forallb f (alternatives ty) = true -> forall ss, In ss (alternatives ty) -> f ss = true.
Proof. rewrite forallb_forall. auto. Qed.

(* the connective word of a node *)
Definition words_ok (ty : string) (s : tok) : bool :=
  forallb (fun ss => firm s ss && Nat.eqb (count s ss) 1) (alternatives ty).
Lemma after_words : forallb (fun e => plain (snd e) && words_ok (fst e) (snd e)) (("GUHEK", T_GUhA) :: afterthought) = true.
Proof. vm_compute. reflexivity. Qed.
Lemma one_word ty s ch : In (ty, s) (("GUHEK", T_GUhA) :: afterthought) -> parsed (NT ty ch) ->
  exists x, is_word s x /\ forall y, has_word s ch y <-> y = x.
Proof.
  intros I P. pose proof after_words as A. rewrite forallb_forall in A. specialize (A _ I). cbn [fst snd] in A.
  apply andb_true_iff in A. destruct A as [PL A].
  assert (N : ty <> "AUGMENTED") by (intros ->; cbn [In afterthought] in I; intuition discriminate).
  destruct (parsed_prod ty ch P N) as (ss & IS & F). apply (alts _ _ A) in IS. apply andb_true_iff in IS. destruct IS as [FI C].
  apply Nat.eqb_eq in C. destruct (cands_count s ss ch PL F FI) as [L W]. rewrite C in L.
  destruct (cmavo_candidates ch s) as [|x [|]] eqn:E; try discriminate L. exists x. split; [exact (Forall_inv W) |].
  intro y. rewrite <- candidates_word, E. cbn [In]. intuition congruence.
Qed.

(* a first child of a kind *)
Lemma first_child k ss ch : k <> "AUGMENTED" -> fitsx ss ch -> existsb (is_SN k) ss = true -> exists j cc, first_nt k ch j cc.
Proof.
  intros A F E. destruct (fits_has k ss ch F E) as (j & cc & N). assert (K := find_child_ok k ch).
  destruct (find_nth_child 0 ch 1 k) as [i|]; [destruct K as (gch & K); eauto | destruct (K _ _ N)].
Qed.

(* the gik of a phrase with a forethought connective, and that it has only one *)
Definition fore_sym (s : sym) : bool := is_SN "GUHEK" s || is_SN "GEK" s.
Definition phrase_ok (ss : list sym) : bool :=
  if existsb fore_sym ss then existsb (is_SN "GIK") ss && Nat.eqb (List.length (filter fore_sym ss)) 1 else true.
Lemma phrases : forallb (fun r => forallb phrase_ok (snd r)) grammar = true.
Proof. vm_compute. reflexivity. Qed.
Lemma prod_phrase ty ss : In ss (alternatives ty) -> phrase_ok ss = true.
Proof.
  intro I. unfold alternatives in I. apply in_flat_map in I. destruct I as (r & R & I). destruct (String.eqb (fst r) ty); [| destruct I].
  pose proof phrases as C. rewrite forallb_forall in C. specialize (C r R). rewrite forallb_forall in C. apply C. exact I.
Qed.

Lemma sym_of_child k ss ch i cc : k <> "AUGMENTED" -> fitsx ss ch -> nth_error ch i = Some (NT k cc) -> existsb (is_SN k) ss = true.
Proof.
  intros A F N. destruct (existsb (is_SN k) ss) eqn:E; [reflexivity |]. exfalso.
  eapply not_in_fits; [exact A | exact F | exact E | eapply nth_error_In; exact N].
Qed.

Lemma fore_count ss ch : fitsx ss ch -> List.length (filter is_forethought ch) = List.length (filter fore_sym ss).
Proof.
  induction 1 as [|ty ss ch cs F IH|t x ss cs W F IH|t ss cs F IH|t x ss cs W F IH]; [reflexivity |..]; cbn [filter].
  - change (is_forethought (NT ty ch)) with (fore_sym (SN ty)). destruct (fore_sym (SN ty)); cbn [List.length]; congruence.
  - replace (is_forethought x) with false; [exact IH |]. unfold is_forethought.
    rewrite (wordlike_not _ _ "GUHEK" W), (wordlike_not _ _ "GEK" W); [reflexivity | discriminate..].
  - exact IH.
  - replace (is_forethought x) with false; [exact IH |]. unfold is_forethought.
    rewrite (wordlike_not _ _ "GUHEK" W), (wordlike_not _ _ "GEK" W); [reflexivity | discriminate..].
Qed.
Lemma filter_one {A} (f : A -> bool) (l : list A) : List.length (filter f l) <= 1 ->
  forall i j a b, nth_error l i = Some a -> nth_error l j = Some b -> f a = true -> f b = true -> i = j.
Proof.
  induction l as [|c l IH]; intros L i j a b I J Fa Fb; [destruct i; discriminate I |].
  assert (Z : forall k d, nth_error l k = Some d -> f d = true -> f c = true -> False).
  { intros k d K Fd Fc. cbn [filter] in L. rewrite Fc in L. cbn [List.length] in L. apply nth_error_In in K.
    assert (D : In d (filter f l)) by (apply filter_In; auto). destruct (filter f l); [destruct D | cbn in L; lia]. }
  destruct i as [|i], j as [|j]; cbn [nth_error] in I, J.
  - reflexivity.
  - exfalso. injection I as ->. eapply Z; eauto.
  - exfalso. injection J as ->. eapply Z; eauto.
  - f_equal. eapply IH; eauto. cbn [filter] in L. destruct (f c); cbn [List.length] in L; lia.
Qed.

Lemma phrase_gik pty pch i ty ch : parsed (NT pty pch) -> pty <> "AUGMENTED" -> nth_error pch i = Some (NT ty ch) ->
  ty = "GUHEK" \/ ty = "GEK" ->
  (exists j gch, gik_child pch j gch) /\ forall k t, nth_error pch k = Some t -> is_forethought t = true -> k = i.
Proof.
  intros P A N K. destruct (parsed_prod pty pch P A) as (ss & IS & F).
  assert (T : ty <> "AUGMENTED") by (intros ->; destruct K; discriminate).
  pose proof (sym_of_child ty ss pch i ch T F N) as E. pose proof (prod_phrase pty ss IS) as Q. unfold phrase_ok in Q.
  replace (existsb fore_sym ss) with true in Q.
  2: { symmetry. apply existsb_exists in E. destruct E as (s & I & E). apply existsb_exists. exists s. split; [exact I |].
       unfold fore_sym. destruct K as [->| ->]; rewrite E; [reflexivity | apply orb_true_r]. }
  apply andb_true_iff in Q. destruct Q as [Q1 Q2]. split.
  - destruct (first_child "GIK" ss pch ltac:(discriminate) F Q1) as (j & cc & X). exists j, cc. exact X.
  - intros k t Nk Ft. eapply (filter_one is_forethought pch); [| exact Nk | exact N | exact Ft |].
    + rewrite (fore_count ss pch F). apply Nat.eqb_eq in Q2. lia.
    + unfold is_forethought. destruct K as [->| ->]; reflexivity.
Qed.

(* the three kinds of gek *)
Definition gek_ok (ss : list sym) : bool :=
  if firm T_GA ss && firm T_GI ss then
    if Nat.eqb (count T_GA ss) 1 then true
    else if Nat.eqb (count T_GA ss) 0 then
      if Nat.eqb (count T_GI ss) 0 then existsb (is_SN "GIK") ss && existsb (is_SN "STAG") ss
      else existsb (is_SN "JOIK") ss
    else false
  else false.
Lemma geks : forallb gek_ok (alternatives "GEK") = true.
Proof. vm_compute. reflexivity. Qed.
Lemma gek_kinds ch : parsed (NT "GEK" ch) ->
  (exists x, is_word T_GA x /\ forall y, has_word T_GA ch y <-> y = x) \/
  (present T_GA ch false /\ present T_GI ch true /\ exists j jch, first_nt "JOIK" ch j jch) \/
  (present T_GA ch false /\ present T_GI ch false /\ (exists j gch, first_nt "GIK" ch j gch) /\ exists j sch, first_nt "STAG" ch j sch).
Proof.
  intro P. destruct (parsed_prod "GEK" ch P ltac:(discriminate)) as (ss & IS & F). apply (alts _ _ geks) in IS. unfold gek_ok in IS.
  destruct (firm T_GA ss && firm T_GI ss) eqn:M; [| discriminate IS]. apply andb_true_iff in M. destruct M as [M1 M2].
  destruct (cands_count T_GA ss ch eq_refl F M1) as [L1 W1]. destruct (cands_count T_GI ss ch eq_refl F M2) as [L2 W2].
  destruct (Nat.eqb_spec (count T_GA ss) 1) as [C|C].
  - left. rewrite C in L1. destruct (cmavo_candidates ch T_GA) as [|x [|]] eqn:E; try discriminate L1. exists x.
    split; [exact (Forall_inv W1) |]. intro y. rewrite <- candidates_word, E. cbn [In]. intuition congruence.
  - destruct (Nat.eqb_spec (count T_GA ss) 0) as [C0|C0]; [| discriminate IS]. rewrite C0 in L1.
    assert (NG : present T_GA ch false).
    { intros y Y. apply candidates_word in Y. destruct (cmavo_candidates ch T_GA); [destruct Y | discriminate L1]. }
    right. destruct (Nat.eqb_spec (count T_GI ss) 0) as [D|D].
    + right. rewrite D in L2. apply andb_true_iff in IS. destruct IS as [I1 I2]. split; [exact NG |]. split.
      * intros y Y. apply candidates_word in Y. destruct (cmavo_candidates ch T_GI); [destruct Y | discriminate L2].
      * split; eapply first_child; try exact F; try assumption; discriminate.
    + left. split; [exact NG |]. split.
      * destruct (cmavo_candidates ch T_GI) as [|x l] eqn:E; [cbn in L2; congruence |]. exists x. apply candidates_word. rewrite E. left. reflexivity.
      * eapply first_child; [discriminate | exact F | exact IS].
Qed.

Theorem parse_regular t : parse_tree t -> regular (expand_bahe_ui t).
Proof.
  intro T. destruct (parse_expand t T) as [P C]. destruct (expand_bahe_ui t) as [x|ty0 ch0]; [discriminate C |].
  apply String.eqb_eq in C. subst ty0. split.
  - intros ty ch E. injection E as <- <-. split; [| split; [| split]].
    + intros s I. cbn [In afterthought] in I. exfalso. intuition discriminate.
    + discriminate.
    + intros [X|X]; discriminate X.
    + discriminate.
  - intros p i pty pch ty ch E N.
    assert (SP : sound (NT pty pch)) by (eapply at_sound; [exact P | discriminate | exact E]).
    destruct (String.eqb_spec ty "AUGMENTED") as [->|TA].
    { split; [| split; [| split]]; [|discriminate| |discriminate].
      + intros s I. cbn [In afterthought] in I. exfalso. intuition discriminate.
      + intros [X|X]; discriminate X. }
    assert (E2 : subtree (NT "CHUNKS" ch0) (p ++ [i]) = Some (NT ty ch)).
    { eapply subtree_child; eassumption. }
    destruct (PassProofs2.parent_of (NT "CHUNKS" ch0) p i ty ch P eq_refl E2 TA) as (pty' & pch' & E' & N' & A & PP & K).
    rewrite E in E'. injection E' as <- <-.
    assert (PC : parsed (NT ty ch)) by (eapply parsed_children; [exact PP | exact A | eapply nth_error_In; exact N]).
    split; [| split; [| split]].
    + intros s I. destruct (one_word ty s ch (or_intror I) PC) as (x & X & U). exists x. apply U. reflexivity.
    + intros ->. destruct (one_word "GUHEK" T_GUhA ch (or_introl eq_refl) PC) as (x & X & U). exists x. apply U. reflexivity.
    + intro G. destruct (phrase_gik pty pch i ty ch PP A N G) as [(j & gch & X) _]. exists pch, j, gch. auto.
    + intros ->. destruct (gek_kinds ch PC) as [(x & X & U)|[(X & Y & j & jch & J)|(X & Y & (j & gch & J) & k & sch & S)]].
      * left. exists x. apply U. reflexivity.
      * right. left. split; [exact Y |]. exists j, jch. apply J.
      * right. right. split; [exact Y |]. split; [exists j, gch; apply J | exists k, sch; apply S].
Qed.

(* the word has a meaning *)
Lemma has_meaning core tab x : In (core, tab) families -> is_word core x -> core <> T_FAhO -> plain core = true ->
  table_word core x /\ exists m, vowel_meaning (text_of x) = Some m.
Proof.
  intros I W NF PL. pose proof (word_test core x core W PL) as T. rewrite tok_eqb_refl in T. unfold cmtest in T.
  unfold is_word in W. destruct (dat x) eqn:D; try discriminate T. apply tok_eqb_eq in T. subst. destruct W as [SM _]. split.
  - eexists. eexists. split; [exact D | exact SM].
  - assert (NM := tables_named). rewrite forallb_forall in NM. specialize (NM _ I). cbn [fst snd] in NM.
    rewrite forallb_forall in NM. unfold text_of. rewrite D. unfold cmavo_word, cmavo_selmao, cmavo_cell in *.
    destruct (find _ cmavo_cells) as [[[c w] s]|] eqn:F; [| discriminate SM]. injection SM as ->.
    apply find_some in F. destruct F as (F & _). specialize (NM _ F). unfold named_by in NM. rewrite tok_eqb_refl in NM.
    unfold vowel_meaning.
    destruct (lookup_func tab w); destruct (last_char w) as [[] [] [] [] [] [] [] []]; try discriminate NM; eexists; reflexivity.
Qed.
Lemma core_of core tab x ch : In (core, tab) families -> plain core = true -> core <> T_FAhO ->
  is_word core x -> (forall y, has_word core ch y <-> y = x) -> exists m, core_word core ch m.
Proof.
  intros I PL NF W U. destruct (has_meaning core tab x I W NF PL) as [TW [m V]]. exists m. split.
  - exists x. apply U. reflexivity.
  - intros y Y. apply U in Y. subst y. auto.
Qed.

Theorem parse_connectives t : parse_tree t -> exists ws, connectives_processing (expand_bahe_ui t) = Ok ws /\
  (forall p ty ch core, subtree (expand_bahe_ui t) p = Some (NT ty ch) -> In (ty, core) afterthought ->
     exists m n1 c n2, core_word core ch m /\ present T_NA ch n1 /\ present T_SE ch c /\ present T_NAI ch n2 /\
       connective_at ws p = Some (Logical CNP_AFTER (shown n1 c n2 m))) /\
  (forall p i pty pch ty ch, subtree (expand_bahe_ui t) p = Some (NT pty pch) -> nth_error pch i = Some (NT ty ch) ->
     ty = "GUHEK" \/ ty = "GEK" -> exists j gch n2, gik_child pch j gch /\ present T_NAI gch n2 /\
     ((exists core m n1 c, In (ty, core) forethought /\ core_word core ch m /\ present T_NAI ch n1 /\ present T_SE ch c /\
        connective_at ws (p ++ [i]) = Some (Logical CNP_GE (shown n1 c n2 m)) /\
        connective_at ws (p ++ [j]) = Some (Logical CNP_GI (shown n1 c n2 m))) \/
      (exists k jch, first_nt "JOIK" ch k jch /\
        connective_at ws (p ++ [i]) = Some (Other CNP_GE_JOIK (p ++ [i; k]) false n2) /\
        connective_at ws (p ++ [j]) = Some (Other CNP_GI_JOIK (p ++ [i; k]) false n2)) \/
      (exists k sch k' ogch n1, first_nt "STAG" ch k sch /\ first_nt "GIK" ch k' ogch /\ present T_NAI ogch n1 /\
        connective_at ws (p ++ [i]) = Some (Other CNP_GE_STAG (p ++ [i; k]) n1 n2) /\
        connective_at ws (p ++ [j]) = Some (Other CNP_GI_STAG (p ++ [i; k]) n1 n2)))).
Proof.
  intro T. destruct (connectives_total _ (parse_regular t T)) as [ws M]. exists ws. split; [exact M |].
  destruct (parse_expand t T) as [P C]. set (X := expand_bahe_ui t) in *. clearbody X. split.
  - intros p ty ch core E I.
    assert (A : ty <> "AUGMENTED") by (intros ->; cbn [In afterthought] in I; intuition discriminate).
    assert (PC : parsed (NT ty ch)).
    { destruct p as [|i p _] using rev_ind; [injection E as ->; exact P |].
      destruct (PassProofs2.parent_of X p i ty ch P C E A) as (pty & pch & E' & N' & A' & PP & K).
      eapply parsed_children; [exact PP | exact A' | eapply nth_error_In; exact N']. }
    destruct (one_word ty core ch (or_intror I) PC) as (x & W & U).
    assert (CM : exists m, core_word core ch m).
    { cbn [In afterthought] in I. destruct I as [I|[I|[I|[I|[I|[]]]]]]; injection I as <- <-;
        (eapply core_of; [| | | exact W | exact U]; [unfold families; cbn [In]; auto 8 | reflexivity | discriminate]). }
    destruct CM as [m CM]. exists m. do 3 eexists. split; [exact CM |]. split; [apply found_present |]. split; [apply found_present |].
    split; [apply found_present |]. eapply afterthought_shown; try eassumption; apply found_present.
  - intros p i pty pch ty ch E N G.
    assert (A : ty <> "AUGMENTED") by (intros ->; destruct G; discriminate).
    assert (E2 : subtree X (p ++ [i]) = Some (NT ty ch)) by (eapply subtree_child; eassumption).
    destruct (PassProofs2.parent_of X p i ty ch P C E2 A) as (pty' & pch' & E' & N' & A' & PP & K).
    rewrite E in E'. injection E' as <- <-.
    assert (PC : parsed (NT ty ch)) by (eapply parsed_children; [exact PP | exact A' | eapply nth_error_In; exact N]).
    destruct (phrase_gik pty pch i ty ch PP A' N G) as [(j & gch & J) ONE].
    exists j, gch, (found (find_nth_cmavo_child gch 1 T_NAI)). split; [exact J |]. split; [apply found_present |].
    assert (FORE : forall core tab x, In (core, tab) families -> plain core = true -> core <> T_FAhO -> In (ty, core) forethought ->
      is_word core x -> (forall y, has_word core ch y <-> y = x) ->
      exists core m n1 c, In (ty, core) forethought /\ core_word core ch m /\ present T_NAI ch n1 /\ present T_SE ch c /\
        connective_at ws (p ++ [i]) = Some (Logical CNP_GE (shown n1 c (found (find_nth_cmavo_child gch 1 T_NAI)) m)) /\
        connective_at ws (p ++ [j]) = Some (Logical CNP_GI (shown n1 c (found (find_nth_cmavo_child gch 1 T_NAI)) m))).
    { intros core tab x FI PL NF IF W U. destruct (core_of core tab x ch FI PL NF W U) as [m CM].
      exists core, m, (found (find_nth_cmavo_child ch 1 T_NAI)), (found (find_nth_cmavo_child ch 1 T_SE)).
      split; [exact IF |]. split; [exact CM |]. split; [apply found_present |]. split; [apply found_present |].
      destruct (forethought_shown X ws p i j pty pch ty ch core gch m _ _ _ M E N J IF CM (found_present ch T_NAI) (found_present ch T_SE)
        (found_present gch T_NAI)) as [F1 F2]. split; [exact F1 | apply F2; exact ONE]. }
    destruct G as [->| ->].
    + left. destruct (one_word "GUHEK" T_GUhA ch (or_introl eq_refl) PC) as (x & W & U).
      apply (FORE T_GUhA guhek_words x); auto; [unfold families; cbn [In]; auto 8 | discriminate | left; reflexivity].
    + destruct (gek_kinds ch PC) as [(x & W & U)|[(X1 & X2 & k & jch & KJ)|(X1 & X2 & (k' & ogch & KG) & k & sch & KS)]].
      * left. apply (FORE T_GA gek_words x); auto; [unfold families; cbn [In]; auto 8 | discriminate | right; left; reflexivity].
      * right. left. exists k, jch. split; [exact KJ |].
        destruct (joik_gi_shown X ws p i j k pty pch ch gch jch _ M E N J X1 X2 KJ (found_present gch T_NAI)) as [F1 F2].
        split; [exact F1 | apply F2; exact ONE].
      * right. right. exists k, sch, k', ogch, (found (find_nth_cmavo_child ogch 1 T_NAI)).
        split; [exact KS |]. split; [exact KG |]. split; [apply found_present |].
        destruct (tense_gi_shown X ws p i j k pty pch ch gch ogch sch k' _ _ M E N J X1 X2 KS KG (found_present ogch T_NAI)
          (found_present gch T_NAI)) as [F1 F2]. split; [exact F1 | apply F2; exact ONE].
Qed.
