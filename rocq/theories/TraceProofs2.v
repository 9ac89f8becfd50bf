From Coq Require Import String List NArith ZArith Bool Arith Lia Ascii.
From Verif Require Import Base TokData TokModel StreamModel TreeModel GrammarData GramModel GramProofs TraceModel TraceSpec TraceProofs.
From Verif Require Import WalkModel.
Import ListNotations.
Open Scope string_scope.
Open Scope list_scope.

(* ---- every tree is built by some calls ---- *)
Lemma derived_builds t : derived t -> match t with Leaf _ => True | NT _ _ => exists e, builds t e end.
Proof.
  induction t as [x|ty ch IH] using tree_ind2; intro D; [exact I |]. apply derived_NT in D. destruct D as [(ss & IS & F) DC].
  assert (X : exists es, builds_all ss ch es).
  { clear IS. induction F as [|k ss c cs F IHF|t x ss cs W F IHF|t ss cs F IHF|t x ss cs W F IHF].
    - exists []. constructor.
    - inversion IH as [|? ? I1 I2]; subst. inversion DC as [|? ? D1 D2]; subst. destruct (IHF I2 D2) as (es & B). destruct (I1 D1) as (e & E). exists (repeat Shift 0 ++ e ++ es). constructor; assumption.
    - inversion IH as [|? ? I1 I2]; subst. inversion DC as [|? ? D1 D2]; subst. destruct (IHF I2 D2) as (es & B). exists (repeat Shift 1 ++ es). apply ba_word. exact B.
    - destruct (IHF IH DC) as (es & B). exists es. constructor. exact B.
    - inversion IH as [|? ? I1 I2]; subst. inversion DC as [|? ? D1 D2]; subst. destruct (IHF I2 D2) as (es & B). exists (repeat Shift 1 ++ es). apply ba_terminator. exact B. }
  destruct X as (es & B). destruct (String.eqb_spec ty "CHUNKS") as [->|N].
  - exists (es ++ repeat Shift 1 ++ [Reduce 0 0]). apply (builds_node _ _ ss); [exact IS | exact B | right; left; reflexivity | discriminate].
  - exists (es ++ repeat Shift 0 ++ [Reduce 0 0]). apply (builds_node _ _ ss); [exact IS | exact B | left; reflexivity | intro E; contradiction].
Qed.

(* ---- nodes further down ---- *)
Lemma builds_all_nth ss cs es : builds_all ss cs es -> forall i ty ch, nth_error cs i = Some (NT ty ch) -> exists a e b, es = a ++ e ++ b /\ builds (NT ty ch) e.
Proof.
  induction 1 as [|k ch' ss cs e es n B' B IH|t x ss cs es n B IH|t ss cs es B IH|t x ss cs es n B IH]; intros i ty ch N.
  - destruct i; discriminate N.
  - destruct i as [|i]; cbn [nth_error] in N.
    + injection N as -> ->. exists (repeat Shift n), e, es. auto.
    + destruct (IH i ty ch N) as (a & e' & b & -> & X). exists (repeat Shift n ++ e ++ a), e', b. split; [rewrite <- !app_assoc; reflexivity | exact X].
  - destruct i as [|i]; cbn [nth_error] in N; [discriminate N |]. destruct (IH i ty ch N) as (a & e' & b & -> & X). exists (repeat Shift (S n) ++ a), e', b. split; [rewrite <- !app_assoc; reflexivity | exact X].
  - exact (IH i ty ch N).
  - destruct i as [|i]; cbn [nth_error] in N; [discriminate N |]. destruct (IH i ty ch N) as (a & e' & b & -> & X). exists (repeat Shift n ++ a), e', b. split; [rewrite <- !app_assoc; reflexivity | exact X].
Qed.
Lemma builds_sub p : forall t e ty ch, builds t e -> subtree t p = Some (NT ty ch) -> exists a e' b, e = a ++ e' ++ b /\ builds (NT ty ch) e'.
Proof.
  induction p as [|i p IH]; intros t e ty ch B S.
  - cbn [subtree] in S. injection S as ->. exists [], e, []. rewrite app_nil_r. auto.
  - inversion B as [k' c' ss es n s r I BA K C]; subst. cbn [subtree] in S. destruct (nth_error c' i) as [c|] eqn:N; [| discriminate S].
    destruct c as [x|k2 c2]; [destruct p; discriminate S |].
    destruct (builds_all_nth _ _ _ BA i k2 c2 N) as (a & e' & b & -> & B'). destruct (IH _ _ _ _ B' S) as (a' & e2 & b' & -> & B2).
    exists (a ++ a'), e2, (b' ++ b ++ repeat Shift n ++ [Reduce s r]). split; [rewrite <- !app_assoc; reflexivity | exact B2].
Qed.
Lemma overrun t p u n es : parses t es -> subtree t p = Some u -> end_together u n -> max_reductions < n -> records es [] = UB UB_bounds.
Proof.
  intros [e s r B] S E H. destruct u as [x|ty ch]; [inversion E |]. destruct (builds_sub _ _ _ _ _ B S) as (a & e' & b & -> & B').
  apply records_bad; [cbn [List.length]; lia |]. cbn [List.length]. rewrite !peak_app.
  pose proof (ends_final _ _ E e' (final a 0) B') as F. pose proof (peak_final e' (final a 0)). lia.
Qed.

(* ---- the words ---- *)
Lemma app_empty s : (s ++ "")%string = s.
Proof. induction s as [|c s IH]; [reflexivity | exact (f_equal (String c) IH)]. Qed.
Lemma last_toks_spec name ssm n : forall ts p out, p <= List.length ts ->
  last_toks name ssm n ts p = Ok out <-> shown name ssm (firstn n (rev (firstn p ts))) out.
Proof.
  unfold shown. induction n as [|n IH]; intros ts p out L; cbn [last_toks firstn].
  - split; [intro H; injection H as <-; exists []; split; [constructor | reflexivity] |]. intros (ds & F & ->). inversion F; subst. reflexivity.
  - destruct p as [|p]; cbn [at_pos].
    + cbn [firstn rev]. split; [intro H; injection H as <-; exists []; split; [constructor | reflexivity] |]. intros (ds & F & ->). inversion F; subst. reflexivity.
    + destruct (nth_error ts p) as [x|] eqn:N; [| apply nth_error_None in N; lia].
      assert (R : rev (firstn (S p) ts) = x :: rev (firstn p ts)).
      { clear -N. revert p N. induction ts as [|y ts IHt]; intros [|p] N; try discriminate N; [injection N as ->; reflexivity |]. cbn [nth_error] in N. change (firstn (S (S p)) (y :: ts)) with (y :: firstn (S p) ts). cbn [rev]. rewrite (IHt p N). reflexivity. }
      rewrite R. cbn [firstn ring_prev]. assert (CC : forall d ds, String.concat "" (d :: ds) = (d ++ String.concat "" ds)%string).
      { intros d [|d2 ds]; cbn [String.concat]; [symmetry; apply app_empty | reflexivity]. }
      split.
      * destruct (details name ssm x) as [d| | | | ] eqn:D; cbn [obind]; try discriminate. destruct (last_toks name ssm n ts p) as [r| | | | ] eqn:E; cbn [obind]; try discriminate.
        intro H. injection H as <-. apply IH in E; [| lia]. destruct E as (ds & F & ->). exists (d :: ds). split; [constructor; assumption |]. rewrite CC. reflexivity.
      * intros (ds & F & ->). inversion F as [|? d ? ds' D F']; subst. rewrite D. cbn [obind].
        assert (E : last_toks name ssm n ts p = Ok (String.concat "" ds')) by (apply IH; [lia |]; exists ds'; auto). rewrite E. cbn [obind]. rewrite CC. reflexivity.
Qed.
Lemma words_at name ssm before x after eof out :
  print_last_toks name ssm (before ++ x :: after) (Stream (S (List.length before)) eof) = Ok out <->
  exists w r, details name ssm x = Ok w /\ shown name ssm (firstn 8 (rev before)) r /\ out = heading w r.
Proof.
  unfold print_last_toks. cbn [pos at_pos]. rewrite nth_error_app2, Nat.sub_diag by lia. cbn [nth_error ring_prev].
  assert (L : List.length before <= List.length (before ++ x :: after)) by (rewrite app_length; lia).
  assert (FN : firstn (List.length before) (before ++ x :: after) = before) by (rewrite firstn_app, Nat.sub_diag, firstn_all; cbn [firstn]; apply app_nil_r).
  split.
  - destruct (details name ssm x) as [w| | | | ]; cbn [obind]; try discriminate.
    destruct (last_toks name ssm 8 (before ++ x :: after) (List.length before)) as [r| | | | ] eqn:E; cbn [obind]; try discriminate.
    intro H. injection H as <-. apply last_toks_spec in E; [| exact L]. rewrite FN in E. exists w, r. auto.
  - intros (w & r & D & S & ->). rewrite D. cbn [obind]. assert (E : last_toks name ssm 8 (before ++ x :: after) (List.length before) = Ok r) by (apply last_toks_spec; [exact L |]; rewrite FN; exact S). rewrite E. reflexivity.
Qed.
Lemma words_end name ssm ts eof out :
  print_last_toks name ssm ts (Stream 0 eof) = Ok out <->
  exists r, shown name ssm (firstn 8 (rev ts)) r /\ out = heading ("  <End of text>" ++ nl)%string r.
Proof.
  unfold print_last_toks. cbn [pos at_pos ring_prev obind].
  split.
  - destruct (last_toks name ssm 8 ts (List.length ts)) as [r| | | | ] eqn:E; cbn [obind]; try discriminate.
    intro H. injection H as <-. apply last_toks_spec in E; [| lia]. rewrite firstn_all in E. exists r. auto.
  - intros (r & S & ->). assert (E : last_toks name ssm 8 ts (List.length ts) = Ok r) by (apply last_toks_spec; [lia |]; rewrite firstn_all; exact S). rewrite E. reflexivity.
Qed.

(* ---- standard output ---- *)
Lemma spaces_app a b : (spaces a ++ spaces b)%string = spaces (a + b).
Proof. unfold spaces. rewrite repeat_app. induction (repeat " "%char a) as [|c l IH]; [reflexivity |]. exact (f_equal (String c) IH). Qed.
Lemma each_out {A} (f : A -> streams) g l : (forall x, In x l -> fst (f x) = spaces (g x)) -> fst (each f l) = spaces (list_sum (map g l)).
Proof.
  induction l as [|x l IH]; intro H; [reflexivity |]. unfold each in *. cbn [fold_right map list_sum fold_right] in *. unfold also at 1. cbn [fst].
  rewrite H by (left; reflexivity). rewrite IH by (intros y Y; apply H; right; exact Y). apply spaces_app.
Qed.
Lemma ones {A} (l : list A) : list_sum (map (fun _ => 1) l) = List.length l.
Proof. induction l as [|x l IH]; [reflexivity |]. cbn [map List.length]. change (list_sum (1 :: map (fun _ => 1) l)) with (1 + list_sum (map (fun _ => 1) l)). lia. Qed.
Lemma items_out T st : fst (each (fun i => display_rule T (fst i) (snd i)) (items T st)) = spaces (List.length (items T st)).
Proof. rewrite (each_out _ (fun _ => 1)); [rewrite ones; reflexivity | reflexivity]. Qed.
Lemma fst_also a b : fst (also a b) = (fst a ++ fst b)%string.
Proof. reflexivity. Qed.
Lemma fst_err a s : fst (also (err s) a) = fst a.
Proof. reflexivity. Qed.
Lemma fst_err2 a s : fst (also a (err s)) = fst a.
Proof. rewrite fst_also. apply app_empty. Qed.
Lemma jammed_out T st : fst (show_jammed T st) = spaces (List.length (items T st)).
Proof. unfold show_jammed. rewrite fst_err, fst_err2. apply items_out. Qed.
Lemma pending_out T st : fst (show_pending T st) = spaces (List.length (items T st)).
Proof. unfold show_pending. rewrite fst_err, fst_err2. apply items_out. Qed.
Lemma reduced_out T l : fst (match l with [] => err ("  NONE" ++ nl)%string | _ => each (show_reduced T) l end) = spaces (List.length l).
Proof. destruct l as [|r l]; [reflexivity |]. rewrite (each_out _ (fun _ => 1)); [rewrite ones; reflexivity |]. intros x _. unfold show_reduced. rewrite fst_err2. reflexivity. Qed.
Lemma report_out T name ssm ts s l st below out err_ : report_trace_error true T name ssm ts s l st below = Ok (out, err_) ->
  out = spaces (productions T l st below).
Proof.
  unfold report_trace_error. destruct (print_last_toks name ssm ts s) as [w| | | | ]; cbn [obind]; try discriminate. intro H.
  apply (f_equal (fun o => match o with Ok x => fst x | _ => "" end)) in H. cbv beta iota in H. change (fst (out, err_)) with out in H. rewrite <- H.
  rewrite fst_err, fst_err, fst_also, reduced_out, fst_also, jammed_out, fst_err, (each_out _ (fun s => List.length (items T s))) by (intros x _; apply pending_out).
  rewrite !spaces_app. reflexivity.
Qed.
Lemma report_short T name ssm ts s l st below : report_trace_error false T name ssm ts s l st below =
  do w <- print_last_toks name ssm ts s; Ok ("", let r := ("--------------------" ++ nl)%string in r ++ "SYNTAX ERROR IN TEXT" ++ nl ++ r ++ w ++ r)%string.
Proof. reflexivity. Qed.
