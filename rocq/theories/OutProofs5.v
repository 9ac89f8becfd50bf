(* The glossed output of parse trees: it is complete. *)
From Coq Require Import String Ascii List NArith ZArith Bool Arith Lia.
From Verif Require Import Base TokData CmavoData TokModel StreamModel TreeModel TreeOutModel ErasureProofs GrammarData GramModel GramSpec
  GramProofs PassProofs2 ConnectModel ConnectSpec ConnectProofs ConnectProofs2.
From Verif Require Import OutModel OutSpec OutProofs OutProofs2 OutProofs3 OutProofs4.
Import TransModel(tctx).
Import ListNotations.
Open Scope string_scope.
Open Scope list_scope.

(* ---------- connectives ---------- *)

Definition connectives : list string := ["JEK"; "JEK_OPT_KE"; "JEK_OPT_KEBO"; "EK"; "GIHEK"; "GEK"; "GIK"; "GUHEK"].
Definition gik_ok (ss : list sym) : bool := Nat.leb (List.length (filter (is_SN "GIK") ss)) 1.
Lemma gik_rules : forallb (fun r => forallb (fun ss => gik_ok ss && (if existsb (is_SN "GIK") ss then
    String.eqb (fst r) "GEK" || existsb fore_sym ss else true)) (snd r)) grammar = true.
Proof. vm_compute. reflexivity. Qed.
Lemma gik_rule ty ss : In ss (alternatives ty) -> gik_ok ss = true /\ (existsb (is_SN "GIK") ss = true -> ty = "GEK" \/ existsb fore_sym ss = true).
Proof.
  intro I. unfold alternatives in I. apply in_flat_map in I. destruct I as (r & R & I). destruct (String.eqb (fst r) ty) eqn:Q; [| destruct I].
  apply String.eqb_eq in Q. pose proof gik_rules as C. rewrite forallb_forall in C. specialize (C r R). rewrite forallb_forall in C. specialize (C ss I).
  apply andb_true_iff in C. destruct C as [C1 C2]. split; [exact C1|]. intro E. rewrite E in C2. apply orb_true_iff in C2. destruct C2 as [C2|C2]; [left|right; exact C2].
  apply String.eqb_eq in C2. congruence.
Qed.
Lemma gik_count ss ch : fitsx ss ch -> List.length (filter (is_nt "GIK") ch) = List.length (filter (is_SN "GIK") ss).
Proof.
  induction 1 as [|ty ss ch cs F IH|t x ss cs W F IH|t ss cs F IH|t x ss cs W F IH]; [reflexivity |..]; cbn [filter].
  - change (is_nt "GIK" (NT ty ch)) with (is_SN "GIK" (SN ty)). destruct (is_SN "GIK" (SN ty)); cbn [List.length]; congruence.
  - rewrite (wordlike_not _ _ "GIK" W); [exact IH | discriminate].
  - exact IH.
  - rewrite (wordlike_not _ _ "GIK" W); [exact IH | discriminate].
Qed.

(* what the output needs to know about a connective *)
Definition settled (T : tree) (o : option xconnective) : Prop :=
  match o with
  | Some (Logical pos _) => pos = CNP_AFTER \/ pos = CNP_GE \/ pos = CNP_GI
  | Some (Other pos js _ _) => (pos = CNP_GE_JOIK \/ pos = CNP_GI_JOIK \/ pos = CNP_GE_STAG \/ pos = CNP_GI_STAG) /\
      exists k ch, subtree T js = Some (NT k ch) /\ (k = "JOIK" \/ k = "STAG")
  | None => False
  end.

Lemma sub2 T p pty pch i ty ch k jty jch : subtree T p = Some (NT pty pch) -> nth_error pch i = Some (NT ty ch) ->
  nth_error ch k = Some (NT jty jch) -> subtree T (p ++ [i; k]) = Some (NT jty jch).
Proof.
  intros E N K. rewrite (subtree_app T p [i; k]), E. cbn [subtree]. rewrite N, K. reflexivity.
Qed.

Lemma connective_present t ws : parse_tree t -> connectives_processing (expand_bahe_ui t) = Ok ws ->
  forall p ty ch, subtree (expand_bahe_ui t) p = Some (NT ty ch) -> In ty connectives ->
  (ty = "GIK" -> forall q i gch, p = q ++ [i] -> subtree (expand_bahe_ui t) q <> Some (NT "GEK" gch)) ->
  settled (expand_bahe_ui t) (connective_at ws p).
Proof.
  intros T W p ty ch E I NG. destruct (parse_connectives t T) as (ws' & W' & AF & FO). rewrite W in W'. injection W' as <-.
  destruct (parse_expand t T) as [PE CE].
  assert (A : forall core, In (ty, core) afterthought -> settled (expand_bahe_ui t) (connective_at ws p)).
  { intros core J. destruct (AF p ty ch core E J) as (m & n1 & c & n2 & _ & _ & _ & _ & ->). cbn. auto. }
  assert (G : forall q i pty pch, p = q ++ [i] -> subtree (expand_bahe_ui t) q = Some (NT pty pch) -> nth_error pch i = Some (NT ty ch) ->
    (ty = "GUHEK" \/ ty = "GEK" -> settled (expand_bahe_ui t) (connective_at ws p))).
  { intros q i pty pch -> Eq N K. destruct (FO q i pty pch ty ch Eq N K) as (j & gch & n2 & GC & _ & D).
    destruct D as [(core & m & n1 & c & _ & _ & _ & _ & -> & _)|[(k & jch & FN & -> & _)|(k & sch & k' & ogch & n1 & FN & _ & _ & -> & _)]].
    - cbn. auto.
    - cbn [settled]. split; [auto|]. exists "JOIK", jch. split; [|auto]. exact (sub2 _ _ _ _ _ _ _ _ _ _ Eq N (proj1 FN)).
    - cbn [settled]. split; [auto|]. exists "STAG", sch. split; [|auto]. exact (sub2 _ _ _ _ _ _ _ _ _ _ Eq N (proj1 FN)). }
  assert (PA : ty <> "CHUNKS" -> exists q i, p = q ++ [i]).
  { intro NC. destruct p as [|i0 p0] using rev_ind; [|eauto]. exfalso. destruct (expand_bahe_ui t); [discriminate CE|].
    apply String.eqb_eq in CE. injection E as <- <-. congruence. }
  unfold connectives in I. cbn [In] in I.
  assert (FT : ty = "GUHEK" \/ ty = "GEK" -> settled (expand_bahe_ui t) (connective_at ws p)).
  { intro K. destruct PA as (q & i & ->); [destruct K; subst; discriminate|].
    destruct (PassProofs2.parent_of _ q i ty ch PE CE E) as (pty & pch & Eq & N & _); [destruct K; subst; discriminate|].
    exact (G q i pty pch eq_refl Eq N K). }
  destruct I as [<-|[<-|[<-|[<-|[<-|[<-|[<-|[<-|[]]]]]]]]].
  1-5: eapply A; cbn [In afterthought]; eauto 10.
  - apply FT. auto.
  - destruct PA as (q & i & ->); [discriminate|].
    destruct (PassProofs2.parent_of _ q i "GIK" ch PE CE E ltac:(discriminate)) as (pty & pch & Eq & N & PNA & PP & _).
    destruct (parsed_prod _ _ PP PNA) as (ss & IS & F). destruct (gik_rule _ _ IS) as [G1 G2].
    assert (HG : existsb (is_SN "GIK") ss = true) by (eapply (sym_of_child "GIK"); [discriminate|exact F|exact N]).
    destruct (G2 HG) as [->|FS]; [exfalso; exact (NG eq_refl q i pch eq_refl Eq)|].
    assert (FC : exists i' k cc, nth_error pch i' = Some (NT k cc) /\ (k = "GUHEK" \/ k = "GEK")).
    { apply existsb_exists in FS. destruct FS as (s & SI & SF). unfold fore_sym in SF. apply orb_true_iff in SF.
      destruct s as [k|tk|tk]; [|destruct SF; discriminate|destruct SF; discriminate].
      assert (K : k = "GUHEK" \/ k = "GEK") by (destruct SF as [Z|Z]; apply String.eqb_eq in Z; auto).
      destruct (fits_has k ss pch F) as (i' & cc & N').
      - apply existsb_exists. exists (SN k). split; [exact SI|]. apply String.eqb_refl.
      - eauto. }
    destruct FC as (i' & k & cc & N' & K). destruct (FO q i' pty pch k cc Eq N' K) as (j & gch & n2 & GC & _ & D).
    assert (J : j = i).
    { refine (filter_one (is_nt "GIK") pch _ j i _ _ (proj1 GC) N eq_refl eq_refl). rewrite (gik_count _ _ F). apply Nat.leb_le. exact G1. }
    subst j. destruct D as [(core & m & n1 & c & _ & _ & _ & _ & _ & ->)|[(k2 & jch & FN & _ & ->)|(k2 & sch & k' & ogch & n1 & FN & _ & _ & _ & ->)]].
    + cbn. auto.
    + cbn [settled]. split; [auto|]. exists "JOIK", jch. split; [|auto]. exact (sub2 _ _ _ _ _ _ _ _ _ _ Eq N' (proj1 FN)).
    + cbn [settled]. split; [auto|]. exists "STAG", sch. split; [|auto]. exact (sub2 _ _ _ _ _ _ _ _ _ _ Eq N' (proj1 FN)).
  - apply FT. auto.
Qed.

(* ---------- tags without connectives that jump ---------- *)

Fixpoint closure (f : nat) (todo seen : list string) : list string :=
  match f with
  | O => seen
  | S f => match todo with
           | [] => seen
           | k :: todo => if existsb (String.eqb k) seen then closure f todo seen else closure f (kids k ++ todo) (k :: seen)
           end
  end.
Definition tag_kinds : list string := Eval vm_compute in closure 2000 ["STAG"; "JOIK"] [].
Lemma tag_closed : forallb (fun k => negb (existsb (String.eqb k) ["GEK"; "GUHEK"; "GIK"; "AUGMENTED"]) &&
  forallb (fun k' => existsb (String.eqb k') tag_kinds) (kids k)) tag_kinds = true.
Proof. vm_compute. reflexivity. Qed.
Lemma tag_in k : In k tag_kinds -> k <> "AUGMENTED" /\ k <> "GEK" /\ k <> "GUHEK" /\ k <> "GIK" /\ forall k', In k' (kids k) -> In k' tag_kinds.
Proof.
  intro I. pose proof tag_closed as C. rewrite forallb_forall in C. specialize (C k I). apply andb_true_iff in C. destruct C as [C1 C2].
  rewrite negb_true_iff in C1. cbn [existsb] in C1. repeat rewrite orb_false_iff in C1. destruct C1 as (C3 & C4 & C5 & C6 & _).
  apply String.eqb_neq in C3, C4, C5, C6. repeat split; try assumption. intros k' K. rewrite forallb_forall in C2. specialize (C2 k' K).
  apply existsb_exists in C2. destruct C2 as (z & Z & Q). apply String.eqb_eq in Q. congruence.
Qed.
Lemma tag_below r : forall k ch k' ch', parsed (NT k ch) -> In k tag_kinds -> subtree (NT k ch) r = Some (NT k' ch') ->
  In k' tag_kinds \/ k' = "AUGMENTED".
Proof.
  induction r as [|i r IH]; intros k ch k' ch' PN I E; [injection E as <- <-; auto|].
  destruct (tag_in k I) as (NA & _ & _ & _ & KI). cbn [subtree] in E. destruct (nth_error ch i) as [c|] eqn:N; [|discriminate E].
  pose proof (nth_error_In _ _ N) as NI. destruct (child_kinds k ch c PN NA NI) as [(k2 & cc & -> & K)|(tk & W & K)].
  - exact (IH k2 cc k' ch' (parsed_children _ _ _ PN NA NI) (KI _ K) E).
  - right. destruct (wordlike_inv _ _ W) as [(x & X & ->)|(bs & x & us & B & X & U & ->)]; [destruct r; discriminate E|].
    destruct r as [|j r]; [injection E as <- <-; reflexivity|]. cbn [subtree] in E.
    destruct (nth_error (bs ++ Leaf x :: us) j) as [c|] eqn:N'; [| discriminate E].
    assert (J : ornament c \/ c = Leaf x).
    { apply nth_error_In in N'. apply in_app_or in N'. rewrite Forall_forall in B, U.
      destruct N' as [Z|[Z|Z]]; [left; apply B; exact Z | right; congruence | left; apply U; exact Z]. }
    destruct J as [O| ->]; [|destruct r; discriminate E]. pose proof (at_ornament r c _ O E) as O'. apply ornament_NT in O'. tauto.
Qed.

(* ---------- words ---------- *)

Definition usable (x : node) : Prop :=
  match dat x with N_MARKER _ | N_GARBAGE _ | N_BROKEN_ERASURE _ => False | _ => True end.
Lemma word_usable tk x : is_word tk x -> usable x.
Proof. unfold is_word, usable. destruct (dat x) eqn:D; auto; unfold value_of; rewrite D; discriminate. Qed.
Lemma leaf_usable t p x : parse_tree t -> subtree (expand_bahe_ui t) p = Some (Leaf x) -> usable x.
Proof.
  intros T E. destruct (parse_expand t T) as [PE CE].
  assert (NE : p <> []). { intros ->. injection E as E. rewrite E in CE. discriminate CE. }
  destruct (exists_last NE) as (q & i & ->). destruct (subtree_snoc _ q i _ E) as (ty & ch & E1 & E2).
  destruct (expand_bahe_ui t) as [y|top tch]; [discriminate CE|]. apply String.eqb_eq in CE. subst top.
  assert (OU : ornament (Leaf x) -> usable x).
  { cbn [ornament]. unfold attachable, usable. destruct (dat x); auto; discriminate. }
  pose proof (nth_error_In _ _ E2) as IN.
  destruct (at_sound q _ _ _ PE ltac:(discriminate) E1) as [[NA PN]|[O|[tk W]]].
  - destruct (child_kinds ty ch _ PN NA IN) as [(k & cc & Q & _)|(tk & W & _)]; [discriminate Q|].
    destruct (wordlike_inv _ _ W) as [(y & Y & Q)|(bs & y & us & _ & _ & _ & Q)]; [|discriminate Q]. injection Q as <-. exact (word_usable _ _ Y).
  - apply ornament_NT in O. destruct O as [_ O]. rewrite Forall_forall in O. exact (OU (O _ IN)).
  - destruct (wordlike_inv _ _ W) as [(y & Y & Q)|(bs & y & us & B & Y & U & Q)]; [discriminate Q|]. injection Q as -> ->.
    apply in_app_or in IN. rewrite Forall_forall in B, U. destruct IN as [IN|[IN|IN]]; [exact (OU (B _ IN))| |exact (OU (U _ IN))].
    injection IN as <-. exact (word_usable _ _ Y).
Qed.
