(* The walk of terms.c: the whole of it. *)
From Coq Require Import String List NArith ZArith Bool Arith Lia Sorted.
From Verif Require Import Base TokData CmavoData TokModel StreamModel TreeModel TreeOutModel GrammarData GramModel GramSpec GramProofs PassProofs2
  ConvSpec ConvProofs2 ErasureProofs TermsModel TermsSpec WalkModel WalkSpec WalkProofs WalkProofs2 WalkProofs3 WalkProofs4.
From Verif Require OutModel PassModel.
Import ListNotations.
Open Scope string_scope.
Open Scope list_scope.

(* ---------- scans ---------- *)

Definition go_scan (f : here -> outcome (list effect)) (p : list nat) :=
  fix go (i : nat) (l : list tree) : outcome (list effect) :=
    match l with
    | [] => Ok []
    | c :: l => do a <- scan f (p ++ [i]) c; do b <- go (S i) l; Ok (a ++ b)
    end.
Lemma scan_in f x : forall (p : list nat) es, scan f p x = Ok es ->
  forall e, In e es <-> exists (r : list nat) k ch es', subtree x r = Some (NT k ch) /\ f (p ++ r, NT k ch) = Ok es' /\ In e es'.
Proof.
  induction x as [n|k ch IH] using tree_ind2; intros p es R e.
  - cbn [scan] in R. injection R as <-. split; [intros [] |]. intros (r & k & ch & es' & E & _). destruct r; discriminate E.
  - change (scan f p (NT k ch)) with (do a <- f (p, NT k ch); do b <- go_scan f p 0 ch; Ok (a ++ b)) in R.
    oinv R. oinv R. injection R as <-. rewrite in_app_iff.
    assert (G : forall l, (forall c, In c l -> In c ch) -> forall i b, go_scan f p i l = Ok b ->
      (In e b <-> exists j c (r : list nat) k' ch' es', nth_error l j = Some c /\ subtree c r = Some (NT k' ch') /\ f ((p ++ [i + j]) ++ r, NT k' ch') = Ok es' /\ In e es')).
    { induction l as [|c l IHl]; intros SUB i b GB.
      - injection GB as <-. split; [intros [] |]. intros (j & c & r & k' & ch' & es' & N & _). destruct j; discriminate N.
      - change (go_scan f p i (c :: l)) with (do a <- scan f (p ++ [i]) c; do b <- go_scan f p (S i) l; Ok (a ++ b)) in GB.
        oinv GB. oinv GB. injection GB as <-. rewrite in_app_iff. rewrite Forall_forall in IH.
        rewrite (IH c (SUB c (or_introl eq_refl)) _ _ E1 e). rewrite (IHl (fun c' I => SUB c' (or_intror I)) _ _ E2). split.
        + intros [(r & k' & ch' & es' & S1 & F1 & I)|(j & c' & r & k' & ch' & es' & N & S1 & F1 & I)].
          * exists 0, c, r, k', ch', es'. rewrite Nat.add_0_r. auto.
          * exists (S j), c', r, k', ch', es'. replace (i + S j) with (S i + j) by lia. auto.
        + intros (j & c' & r & k' & ch' & es' & N & S1 & F1 & I). destruct j as [|j].
          * left. injection N as <-. rewrite Nat.add_0_r in F1. exists r, k', ch', es'. auto.
          * right. exists j, c', r, k', ch', es'. replace (S i + j) with (i + S j) by lia. auto. }
    rewrite (G ch (fun c I => I) 0 _ E0). split.
    + intros [I|(j & c & r & k' & ch' & es' & N & S1 & F1 & I)].
      * exists [], k, ch, a. rewrite app_nil_r. auto.
      * exists (j :: r), k', ch', es'. cbn [Nat.add] in F1. rewrite <- app_assoc in F1. cbn [subtree]. rewrite N. auto.
    + intros (r & k' & ch' & es' & S1 & F1 & I). destruct r as [|j r].
      * left. injection S1 as <- <-. rewrite app_nil_r in F1. congruence.
      * right. cbn [subtree] in S1. destruct (nth_error ch j) as [c|] eqn:N; [| discriminate S1]. exists j, c, r, k', ch', es'.
        cbn [Nat.add]. rewrite <- app_assoc. auto.
Qed.

(* a tree's nodes, a node before those below it *)
Fixpoint nodes (p : list nat) (x : tree) : list here :=
  match x with
  | Leaf _ => []
  | NT _ ch =>
      (p, x) :: (fix go (i : nat) (l : list tree) : list here :=
                   match l with [] => [] | c :: l => nodes (p ++ [i]) c ++ go (S i) l end) 0 ch
  end.
Definition go_nodes (p : list nat) :=
  fix go (i : nat) (l : list tree) : list here := match l with [] => [] | c :: l => nodes (p ++ [i]) c ++ go (S i) l end.
Fixpoint run (es : list effect) (l : list here) : outcome (list effect) :=
  match l with
  | [] => Ok []
  | n :: l => do a <- leftover es n; do b <- run (es ++ a) l; Ok (a ++ b)
  end.
Lemma run_app l1 : forall es l2, run es (l1 ++ l2) = (do a <- run es l1; do b <- run (es ++ a) l2; Ok (a ++ b)).
Proof.
  induction l1 as [|n l1 IH]; intros es l2; cbn [app run].
  - cbn [obind]. rewrite app_nil_r. destruct (run es l2); reflexivity.
  - destruct (leftover es n) as [a| | | |]; cbn [obind]; try reflexivity. rewrite IH. destruct (run (es ++ a) l1) as [b| | | |]; cbn [obind]; try reflexivity.
    rewrite app_assoc. destruct (run (es ++ a ++ b) l2) as [c| | | |] eqn:E; rewrite <- app_assoc, E; cbn [obind]; try reflexivity.
    rewrite app_assoc. reflexivity.
Qed.
Definition go_phase (p : list nat) :=
  fix go (es : list effect) (i : nat) (l : list tree) : outcome (list effect) :=
    match l with
    | [] => Ok []
    | c :: l => do a <- phase2 es (p ++ [i]) c; do b <- go (es ++ a) (S i) l; Ok (a ++ b)
    end.
Lemma phase2_run x : forall es (p : list nat), phase2 es p x = run es (nodes p x).
Proof.
  induction x as [n|k ch IH] using tree_ind2; intros es p; [reflexivity |].
  change (phase2 es p (NT k ch)) with (do a <- leftover es (p, NT k ch); do b <- go_phase p (es ++ a) 0 ch; Ok (a ++ b)).
  change (nodes p (NT k ch)) with ((p, NT k ch) :: go_nodes p 0 ch). cbn [run].
  destruct (leftover es (p, NT k ch)) as [a| | | |]; cbn [obind]; try reflexivity.
  assert (G : forall l, (forall c, In c l -> In c ch) -> forall i es, go_phase p es i l = run es (go_nodes p i l)).
  { induction l as [|c l IHl]; intros SUB i es0; [reflexivity |].
    change (go_phase p es0 i (c :: l)) with (do a <- phase2 es0 (p ++ [i]) c; do b <- go_phase p (es0 ++ a) (S i) l; Ok (a ++ b)).
    change (go_nodes p i (c :: l)) with (nodes (p ++ [i]) c ++ go_nodes p (S i) l). rewrite run_app.
    rewrite Forall_forall in IH. rewrite (IH c (SUB c (or_introl eq_refl))). destruct (run es0 (nodes (p ++ [i]) c)) as [a0| | | |]; cbn [obind]; try reflexivity.
    rewrite (IHl (fun c' I => SUB c' (or_intror I))). reflexivity. }
  rewrite (G ch (fun c I => I)). reflexivity.
Qed.

Lemma nodes_in x : forall (p : list nat) n, In n (nodes p x) <-> exists (r : list nat) k ch, n = (p ++ r, NT k ch) /\ subtree x r = Some (NT k ch).
Proof.
  induction x as [y|k ch IH] using tree_ind2; intros p n.
  - cbn [nodes In]. split; [intros [] |]. intros (r & k & ch & _ & E). destruct r; discriminate E.
  - change (nodes p (NT k ch)) with ((p, NT k ch) :: go_nodes p 0 ch). cbn [In]. rewrite Forall_forall in IH.
    assert (G : forall l, (forall c, In c l -> In c ch) -> forall i, In n (go_nodes p i l) <->
      exists j c (r : list nat) k' ch', nth_error l j = Some c /\ n = ((p ++ [i + j]) ++ r, NT k' ch') /\ subtree c r = Some (NT k' ch')).
    { induction l as [|c l IHl]; intros SUB i.
      - cbn [go_nodes In]. split; [intros [] |]. intros (j & c & r & k' & ch' & N & _). destruct j; discriminate N.
      - change (go_nodes p i (c :: l)) with (nodes (p ++ [i]) c ++ go_nodes p (S i) l). rewrite in_app_iff.
        rewrite (IH c (SUB c (or_introl eq_refl))), (IHl (fun c' I => SUB c' (or_intror I))). split.
        + intros [(r & k' & ch' & E & S1)|(j & c' & r & k' & ch' & N & E & S1)].
          * exists 0, c, r, k', ch'. rewrite Nat.add_0_r. auto.
          * exists (S j), c', r, k', ch'. replace (i + S j) with (S i + j) by lia. auto.
        + intros (j & c' & r & k' & ch' & N & E & S1). destruct j as [|j].
          * left. injection N as <-. rewrite Nat.add_0_r in E. eauto.
          * right. exists j, c', r, k', ch'. replace (S i + j) with (i + S j) by lia. auto. }
    rewrite (G ch (fun c I => I)). split.
    + intros [<-|(j & c & r & k' & ch' & N & -> & S1)].
      * exists [], k, ch. rewrite app_nil_r. auto.
      * exists (j :: r), k', ch'. cbn [Nat.add]. rewrite <- app_assoc. cbn [subtree]. rewrite N. auto.
    + intros (r & k' & ch' & -> & S1). destruct r as [|j r].
      * left. injection S1 as <- <-. rewrite app_nil_r. reflexivity.
      * right. cbn [subtree] in S1. destruct (nth_error ch j) as [c|] eqn:N; [| discriminate S1]. exists j, c, r, k', ch'. cbn [Nat.add]. rewrite <- app_assoc. auto.
Qed.

(* the order *)
Fixpoint lexlt (a b : list nat) : bool :=
  match a, b with
  | [], _ :: _ => true
  | x :: a, y :: b => Nat.ltb x y || Nat.eqb x y && lexlt a b
  | _, [] => false
  end.
Lemma lexlt_irrefl a : lexlt a a = false.
Proof. induction a as [|x a IH]; cbn [lexlt]; [reflexivity |]. rewrite Nat.ltb_irrefl, IH, andb_false_r. reflexivity. Qed.
Lemma lexlt_app p a b : lexlt (p ++ a) (p ++ b) = lexlt a b.
Proof. induction p as [|x p IH]; cbn [app lexlt]; [reflexivity |]. rewrite Nat.ltb_irrefl, Nat.eqb_refl. exact IH. Qed.
Lemma lexlt_asym a : forall b, lexlt a b = true -> lexlt b a = false.
Proof.
  induction a as [|x a IH]; intros [|y b]; cbn [lexlt]; try discriminate; try reflexivity. intro H. apply orb_true_iff in H. destruct H as [H|H].
  - apply Nat.ltb_lt in H. destruct (Nat.ltb_spec y x); [lia |]. destruct (Nat.eqb_spec y x); [lia | reflexivity].
  - apply andb_true_iff in H. destruct H as [H1 H2]. apply Nat.eqb_eq in H1. subst y. rewrite Nat.ltb_irrefl, Nat.eqb_refl, (IH _ H2). reflexivity.
Qed.
Lemma lexlt_prefix a r : r <> [] -> lexlt a (a ++ r) = true.
Proof. intro N. rewrite <- (app_nil_r a) at 1. rewrite lexlt_app. destruct r; [contradiction | reflexivity]. Qed.

Definition earlier (a b : here) : Prop := lexlt (fst a) (fst b) = true.
Lemma sorted_app (l1 l2 : list here) : StronglySorted earlier l1 -> StronglySorted earlier l2 -> (forall a b, In a l1 -> In b l2 -> earlier a b) ->
  StronglySorted earlier (l1 ++ l2).
Proof.
  induction l1 as [|a l1 IH]; intros S1 S2 H; cbn [app]; [exact S2 |]. inversion S1 as [|? ? S3 F3]; subst. constructor.
  - apply IH; [exact S3 | exact S2 |]. intros x y I J. apply H; [right; exact I | exact J].
  - apply Forall_app. split; [exact F3 |]. apply Forall_forall. intros y J. apply H; [left; reflexivity | exact J].
Qed.
Lemma nodes_sorted x : forall (p : list nat), StronglySorted earlier (nodes p x).
Proof.
  induction x as [y|k ch IH] using tree_ind2; intro p; [constructor |].
  change (nodes p (NT k ch)) with ((p, NT k ch) :: go_nodes p 0 ch). rewrite Forall_forall in IH.
  assert (GI : forall l i n, In n (go_nodes p i l) -> exists j (r : list nat), fst n = (p ++ [i + j]) ++ r).
  { induction l as [|c l IHl]; intros i n I; [destruct I |]. change (go_nodes p i (c :: l)) with (nodes (p ++ [i]) c ++ go_nodes p (S i) l) in I.
    apply in_app_iff in I. destruct I as [I|I].
    - apply nodes_in in I. destruct I as (r & k' & ch' & -> & _). exists 0, r. rewrite Nat.add_0_r. reflexivity.
    - apply IHl in I. destruct I as (j & r & E). exists (S j), r. rewrite E. f_equal. f_equal. f_equal. lia. }
  constructor.
  - assert (G : forall l, (forall c, In c l -> In c ch) -> forall i, StronglySorted earlier (go_nodes p i l)).
    { induction l as [|c l IHl]; intros SUB i; [constructor |]. change (go_nodes p i (c :: l)) with (nodes (p ++ [i]) c ++ go_nodes p (S i) l).
      apply sorted_app; [apply IH; apply SUB; left; reflexivity | apply IHl; intros c' I; apply SUB; right; exact I |].
      intros a b I J. apply nodes_in in I. destruct I as (r & k' & ch' & -> & _). apply GI in J. destruct J as (j & r' & E). unfold earlier. cbn [fst]. rewrite E.
      rewrite <- !app_assoc, lexlt_app. cbn [app lexlt]. replace (Nat.ltb i (S i + j)) with true by (symmetry; apply Nat.ltb_lt; lia). reflexivity. }
    apply G. auto.
  - apply Forall_forall. intros n I. apply GI in I. destruct I as (j & r & E). unfold earlier. cbn [fst]. rewrite E, <- app_assoc. apply lexlt_prefix. discriminate.
Qed.
Lemma sorted_split (l1 : list here) n l2 : StronglySorted earlier (l1 ++ n :: l2) ->
  (forall a, In a l1 -> earlier a n) /\ (forall b, In b l2 -> earlier n b).
Proof.
  induction l1 as [|a l1 IH]; cbn [app]; intro SS; inversion SS as [|? ? S1 F1]; subst.
  - split; [intros a [] |]. rewrite Forall_forall in F1. exact F1.
  - destruct (IH S1) as [A B]. split; [| exact B]. intros x [<-|I]; [| apply A; exact I]. rewrite Forall_forall in F1. apply F1. apply in_or_app. right. left. reflexivity.
Qed.
