(* Proofs about the subset construction, continued: expressions, successor
   sets and the main loop (C27). *)
From Coq Require Import String List Arith NArith Bool Lia.
From Coq Require Import ZifyBool ZifyN ZifyNat.
From Verif Require Import Base Arr DfaModel DfaSpec DfaTabProofs DfaMinProofs DfaSubsetProofs.
Import ListNotations.
Open Scope N_scope.

(* ---- result expressions --------------------------------------------------- *)

Section Eval.
  Variable x : evaluator.
  Variable tags : list string.
  Variable T : string -> Prop.
  Hypothesis HT : forall s, tag_set tags s = true <-> T s.

  Lemma eval_denotes any : forall fuel e b,
    eval fuel x tags any e = Ok b -> denotes (ev_syms x) T any e b.
  Proof.
    induction fuel as [|fuel IH]; intros e; [discriminate|].
    induction e as [a IHa c IHc|a IHa c IHc|a IHa c IHc|a IHa c IHc d IHd|a IHa| |s]; intros b H.
    - cbn [eval] in H. cbn [eval] in IHa, IHc. destruct ((fix go (e : expr) := _) a) as [v| | | |] eqn:E; try discriminate.
      cbn [obind] in H. replace b with (v && b)%bool.
      + apply den_and; [apply IHa; reflexivity|]. intros ->. apply IHc. exact H.
      + destruct v; [reflexivity|]. injection H as <-. reflexivity.
    - cbn [eval] in H. cbn [eval] in IHa, IHc. destruct ((fix go (e : expr) := _) a) as [v| | | |] eqn:E; try discriminate.
      cbn [obind] in H. replace b with (v || b)%bool.
      + apply den_or; [apply IHa; reflexivity|]. intros ->. apply IHc. exact H.
      + destruct v; [|reflexivity]. injection H as <-. reflexivity.
    - cbn [eval] in H. cbn [eval] in IHa, IHc. destruct ((fix go (e : expr) := _) a) as [v| | | |] eqn:E; try discriminate.
      cbn [obind] in H. destruct ((fix go (e : expr) := _) c) as [w| | | |] eqn:E2; try discriminate.
      cbn [obind] in H. injection H as <-. apply den_xor; [apply IHa; reflexivity|apply IHc; reflexivity].
    - cbn [eval] in H. cbn [eval] in IHa, IHc, IHd. destruct ((fix go (e : expr) := _) a) as [v| | | |] eqn:E; try discriminate.
      cbn [obind] in H. apply den_cond with v; [apply IHa; reflexivity|].
      destruct v; [apply IHc|apply IHd]; exact H.
    - cbn [eval] in H. cbn [eval] in IHa. destruct ((fix go (e : expr) := _) a) as [v| | | |] eqn:E; try discriminate.
      cbn [obind] in H. injection H as <-. apply den_not. apply IHa. reflexivity.
    - injection H as <-. apply den_wild.
    - cbn [eval] in H. destruct (find_symbol (ev_syms x) s) as [d|] eqn:E.
      + eapply den_def; [exact E|]. apply IH. exact H.
      + injection H as <-. destruct (tag_set tags s) eqn:Et.
        * apply den_tag; [exact E|]. apply HT. exact Et.
        * apply den_notag; [exact E|]. intro K. apply HT in K. congruence.
  Qed.

  Lemma eval_outcome any : forall fuel e,
    (exists b, eval fuel x tags any e = Ok b) \/ eval fuel x tags any e = NoFuel.
  Proof.
    induction fuel as [|fuel IH]; intros e; [right; reflexivity|].
    induction e as [a IHa c IHc|a IHa c IHc|a IHa c IHc|a IHa c IHc d IHd|a IHa| |s]; cbn [eval] in *.
    - destruct IHa as [[v ->]| ->]; cbn [obind]; [|auto]. destruct v; [exact IHc|eauto].
    - destruct IHa as [[v ->]| ->]; cbn [obind]; [|auto]. destruct v; [eauto|exact IHc].
    - destruct IHa as [[v ->]| ->]; cbn [obind]; [|auto]. destruct IHc as [[w ->]| ->]; cbn [obind]; eauto.
    - destruct IHa as [[v ->]| ->]; cbn [obind]; [|auto]. destruct v; [exact IHc|exact IHd].
    - destruct IHa as [[v ->]| ->]; cbn [obind]; eauto.
    - eauto.
    - destruct (find_symbol (ev_syms x) s); [apply IH|eauto].
  Qed.

  Lemma pick_rule_selects : forall rules pre matched r,
    ev_results x = pre ++ rules ->
    match matched with
    | None => Forall (fun r => denotes (ev_syms x) T false (r_expr r) false) pre
    | Some m => exists l l', pre = l ++ m :: l' /\
        Forall (fun r => denotes (ev_syms x) T false (r_expr r) false) l /\
        denotes (ev_syms x) T false (r_expr m) true /\
        Forall (fun r => denotes (ev_syms x) T true (r_expr r) false) l'
    end ->
    pick_rule x tags rules matched = Ok (r, true) -> selects x T r.
  Proof.
    induction rules as [|q rules IH]; intros pre matched r Hpre Hm H; cbn [pick_rule] in H.
    - injection H as <-. rewrite app_nil_r in Hpre. destruct matched as [m|].
      + destruct Hm as (l & l' & E & F1 & D & F2). rewrite E in Hpre. eapply sel_one; eauto.
      + apply sel_none. rewrite Hpre. exact Hm.
    - destruct (eval _ x tags _ (r_expr q)) as [v| | | |] eqn:E; try discriminate. cbn [obind] in H.
      apply eval_denotes in E.
      assert (Hpre' : ev_results x = (pre ++ [q]) ++ rules) by (rewrite <- app_assoc; exact Hpre).
      destruct v.
      + destruct matched; [discriminate|]. apply (IH (pre ++ [q]) (Some q) r Hpre'); [|exact H].
        exists pre, []. split; [reflexivity|]. auto.
      + apply (IH (pre ++ [q]) matched r Hpre'); [|exact H]. destruct matched as [m|].
        * destruct Hm as (l & l' & E' & F1 & D & F2). exists l, (l' ++ [q]).
          rewrite E', <- app_assoc. split; [reflexivity|]. split; [exact F1|]. split; [exact D|].
          apply Forall_app. split; [exact F2|]. constructor; [exact E|constructor].
        * apply Forall_app. split; [exact Hm|]. constructor; [exact E|constructor].
  Qed.

  Lemma evaluate_selects r : evaluate_result x tags = Ok (r, true) -> selects x T r.
  Proof. intro H. eapply (pick_rule_selects (ev_results x) [] None); eauto. Qed.
End Eval.

(* the meaning of an expression is a function of the tags *)
Lemma denotes_fun syms T any : forall e b, denotes syms T any e b ->
  forall b', denotes syms T any e b' -> b = b'.
Proof.
  intros e b H. induction H; intros b' K; inversion K; subst;
    try congruence; try contradiction;
    repeat match goal with
    | IH : forall b', denotes _ _ _ ?a b' -> ?v = b', D : denotes _ _ _ ?a ?w |- _ =>
        apply IH in D; subst
    end; try reflexivity; auto.
  - destruct x0; [|reflexivity]. f_equal. apply H1; auto.
  - destruct x0; [reflexivity|]. f_equal. apply H1; auto.
  - match goal with
    | E1 : find_symbol _ _ = Some ?e1, E2 : find_symbol _ _ = Some ?e2 |- _ =>
        rewrite E1 in E2; injection E2 as <-
    end. auto.
Qed.

Lemma selects_fun x T : forall r, selects x T r -> forall r', selects x T r' -> r = r'.
Proof.
  assert (Hlt : forall (l1 : list rule) r1 l1' l2 r2 l2', l1 ++ r1 :: l1' = l2 ++ r2 :: l2' ->
     (l1 = l2 /\ r1 = r2) \/ In r1 l2 \/ In r2 l1).
  { induction l1 as [|a l1 IH]; intros r1 l1' [|b l2] r2 l2' E; cbn [app] in E.
    - injection E as <- _. auto.
    - injection E as <- _. right. left. left. reflexivity.
    - injection E as <- _. right. right. left. reflexivity.
    - injection E as <- E. destruct (IH _ _ _ _ _ E) as [[-> ->]|[H|H]]; auto.
      + right. left. right. exact H.
      + right. right. right. exact H. }
  intros r H r' K. destruct H as [F|l r l' E F D F'], K as [G|m q m' E' G D' G'].
  - reflexivity.
  - exfalso. rewrite E' in F. apply Forall_app in F. destruct F as [_ F]. inversion F; subst.
    discriminate (denotes_fun _ _ _ _ _ H1 _ D').
  - exfalso. rewrite E in G. apply Forall_app in G. destruct G as [_ G]. inversion G; subst.
    discriminate (denotes_fun _ _ _ _ _ H1 _ D).
  - rewrite E in E'. destruct (Hlt _ _ _ _ _ _ E') as [[_ ->]|[H|H]]; [reflexivity| |]; exfalso.
    + rewrite Forall_forall in G. discriminate (denotes_fun _ _ _ _ _ (G _ H) _ D).
    + rewrite Forall_forall in F. discriminate (denotes_fun _ _ _ _ _ (F _ H) _ D').
Qed.

Lemma denotes_ext syms (T T' : string -> Prop) any : (forall s, T s <-> T' s) ->
  forall e b, denotes syms T any e b -> denotes syms T' any e b.
Proof.
  intros HT e b H. induction H; try (econstructor; eauto; fail).
  - apply den_tag; [assumption|]. apply HT. assumption.
  - apply den_notag; [assumption|]. intro K. apply HT in K. contradiction.
Qed.

Lemma selects_ext x T T' r : (forall s, T s <-> T' s) -> selects x T r -> selects x T' r.
Proof.
  intros HT [F|l q l' E F D F'].
  - apply sel_none. eapply Forall_impl; [|exact F]. intros a. apply denotes_ext. exact HT.
  - eapply sel_one; [exact E| | |].
    + eapply Forall_impl; [|exact F]. intros a. apply denotes_ext. exact HT.
    + eapply denotes_ext; eauto.
    + eapply Forall_impl; [|exact F']. intros a. apply denotes_ext. exact HT.
Qed.

(* ---- successor sets --------------------------------------------------------- *)

Lemma or_at_nth l t v k : nth_error (or_at l t v) k =
  option_map (fun y => if N.of_nat k =? t then N.lor y v else y) (nth_error l k).
Proof.
  unfold or_at. rewrite nth_error_map. destruct (nth_error l k) as [y|] eqn:E.
  - assert (L : (k < List.length l)%nat) by (apply nth_error_Some; congruence).
    erewrite (proj2 (combine_nth_error _ _ k (N.of_nat k) y)); [reflexivity|].
    split; [apply upto_nth; lia|exact E].
  - destruct (nth_error (combine _ l) k) as [[a b]|] eqn:E2; [|reflexivity].
    apply combine_nth_error in E2. destruct E2; congruence.
Qed.

Lemma zeros_nth nt k : (k < N.to_nat nt)%nat -> nth_error (map (fun _ => 0) (upto nt)) k = Some 0.
Proof. intro H. erewrite map_nth_error; [reflexivity|]. apply upto_nth. exact H. Qed.

Lemma transmap_fold nt eclo k : (k < N.to_nat nt)%nat -> forall l row0 y0,
  nth_error row0 k = Some y0 ->
  exists y, nth_error (fold_left (fun row (t : option N * N) =>
    match fst t with
    | None => row
    | Some tok => or_at row tok (row_of eclo (snd t))
    end) l row0) k = Some y /\
   forall j, N.testbit y j = true <->
     N.testbit y0 j = true \/ exists d, In (Some (N.of_nat k), d) l /\ N.testbit (row_of eclo d) j = true.
Proof.
  intro Hk. induction l as [|[[t|] d] l IH]; intros row0 y0 H; cbn [fold_left fst snd].
  - exists y0. split; [exact H|]. intro j. split; [auto|]. intros [K|(d & [] & _)]. exact K.
  - assert (E : nth_error (or_at row0 t (row_of eclo d)) k =
        Some (if N.of_nat k =? t then N.lor y0 (row_of eclo d) else y0)) by (rewrite or_at_nth, H; reflexivity).
    destruct (IH _ _ E) as (y & Ey & Hy). exists y. split; [exact Ey|]. intro j. rewrite Hy.
    destruct (N.eqb_spec (N.of_nat k) t) as [<-|Hne].
    + rewrite N.lor_spec, orb_true_iff. split.
      * intros [[K|K]|(d' & K1 & K2)]; [auto| |].
        -- right. exists d. split; [left; reflexivity|exact K].
        -- right. exists d'. split; [right; exact K1|exact K2].
      * intros [K|(d' & [K1|K1] & K2)]; [auto| |].
        -- injection K1 as <-. auto.
        -- right. eauto.
    + split.
      * intros [K|(d' & K1 & K2)]; [auto|]. right. exists d'. split; [right; exact K1|exact K2].
      * intros [K|(d' & [K1|K1] & K2)]; [auto| |].
        -- injection K1 as -> _. congruence.
        -- right. eauto.
  - destruct (IH _ _ H) as (y & Ey & Hy). exists y. split; [exact Ey|]. intro j. rewrite Hy. split.
    + intros [K|(d' & K1 & K2)]; [auto|]. right. exists d'. split; [right; exact K1|exact K2].
    + intros [K|(d' & [K1|K1] & K2)]; [auto|discriminate|]. right. eauto.
Qed.

Lemma fold_length_map {B} (f : list N -> B -> list N) : (forall r b, List.length (f r b) = List.length r) ->
  forall l r, List.length (fold_left f l r) = List.length r.
Proof. intros H l. induction l; intro r; cbn [fold_left]; [reflexivity|]. rewrite IHl. apply H. Qed.

Lemma transmap_row_length nt eclo s : List.length (transmap_row nt eclo s) = N.to_nat nt.
Proof.
  unfold transmap_row. rewrite fold_length_map.
  - rewrite map_length, upto_length. reflexivity.
  - intros r [[t|] d]; cbn [fst]; [|reflexivity]. unfold or_at. rewrite map_length, combine_length, upto_length. lia.
Qed.

Lemma union_rows_nth a b k x y : nth_error a k = Some x -> nth_error b k = Some y ->
  nth_error (union_rows a b) k = Some (N.lor x y).
Proof.
  intros Ha Hb. unfold union_rows. rewrite nth_error_map.
  erewrite (proj2 (combine_nth_error _ _ k x y)); [reflexivity|auto].
Qed.

Lemma successors_fold nt tm k : (k < N.to_nat nt)%nat ->
  (forall i row, aget tm i = Some row -> List.length row = N.to_nat nt) -> forall l acc y0,
  nth_error acc k = Some y0 ->
  exists y, nth_error (fold_left (fun acc j => match aget tm j with
                          | Some row => union_rows acc row
                          | None => acc
                          end) l acc) k = Some y /\
   forall j, N.testbit y j = true <->
     N.testbit y0 j = true \/ exists i row z, In i l /\ aget tm i = Some row /\ nth_error row k = Some z /\
        N.testbit z j = true.
Proof.
  intros Hk Hlen. induction l as [|i l IH]; intros acc y0 H; cbn [fold_left].
  - exists y0. split; [exact H|]. intro j. split; [auto|]. intros [K|(i & row & z & [] & _)]. exact K.
  - destruct (aget tm i) as [row|] eqn:Ei.
    + destruct (nth_error row k) as [z|] eqn:Ez.
      2:{ apply nth_error_None in Ez. rewrite (Hlen _ _ Ei) in Ez. lia. }
      destruct (IH _ _ (union_rows_nth _ _ _ _ _ H Ez)) as (y & Ey & Hy). exists y. split; [exact Ey|].
      intro j. rewrite Hy, N.lor_spec, orb_true_iff. split.
      * intros [[K|K]|(i' & r' & z' & K1 & K2)]; [auto| |].
        -- right. exists i, row, z. split; [left; reflexivity|auto].
        -- right. exists i', r', z'. split; [right; exact K1|exact K2].
      * intros [K|(i' & r' & z' & [<-|K1] & K2 & K3 & K4)]; [auto| |].
        -- rewrite Ei in K2. injection K2 as <-. rewrite Ez in K3. injection K3 as <-. auto.
        -- right. exists i', r', z'. auto.
    + destruct (IH _ _ H) as (y & Ey & Hy). exists y. split; [exact Ey|]. intro j. rewrite Hy. split.
      * intros [K|(i' & r' & z' & K1 & K2)]; [auto|]. right. exists i', r', z'. split; [right; exact K1|exact K2].
      * intros [K|(i' & r' & z' & [<-|K1] & K2 & K3)]; [auto|congruence|]. right. exists i', r', z'. auto.
Qed.

Lemma successors_length nt tm bm : (forall i row, aget tm i = Some row -> List.length row = N.to_nat nt) ->
  List.length (successors nt tm bm) = N.to_nat nt.
Proof.
  intro Hlen. unfold successors. generalize (bits bm).
  assert (H0 : List.length (map (fun _ : N => 0) (upto nt)) = N.to_nat nt) by (rewrite map_length, upto_length; reflexivity).
  revert H0. generalize (map (fun _ : N => 0) (upto nt)). intros acc H0 l. revert acc H0.
  induction l as [|i l IH]; intros acc H0; cbn [fold_left]; [exact H0|]. apply IH.
  destruct (aget tm i) as [row|] eqn:Ei; [|exact H0]. unfold union_rows.
  rewrite map_length, combine_length, (Hlen _ _ Ei). lia.
Qed.

Definition wf_nfa (nt : N) (A : list nstate) : Prop :=
  forall s st l d, nth_error A (N.to_nat s) = Some st -> In (l, d) (n_trans st) ->
    d < N.of_nat (List.length A) /\ match l with Some t => t < nt | None => True end.

Section Successors.
  Variable A : list nstate.
  Variable nt : N.
  Hypothesis Hwf : wf_nfa nt A.
  Variable eclo : arr N.
  Hypothesis Heclo : forall i j, i < N.of_nat (List.length A) ->
    (N.testbit (row_of eclo i) j = true <-> eps A i j).
  Let tm := build_transmap nt eclo A.

  Lemma tm_length : forall i row, aget tm i = Some row -> List.length row = N.to_nat nt.
  Proof.
    intros i row H. unfold tm, build_transmap in H. rewrite aget_of in H. rewrite nth_error_map in H.
    destruct (nth_error A (N.to_nat i)); [|discriminate]. injection H as <-. apply transmap_row_length.
  Qed.

  (* the set reached by one token *)
  Lemma successors_spec bm t : t < nt ->
    exists y, nth_error (successors nt tm bm) (N.to_nat t) = Some y /\
      forall j, N.testbit y j = true <->
        exists i d, N.testbit bm i = true /\ edge A i (Some t) d /\ eps A d j.
  Proof.
    intro Ht. assert (Hk : (N.to_nat t < N.to_nat nt)%nat) by lia.
    destruct (successors_fold nt tm (N.to_nat t) Hk tm_length (bits bm) _ 0 (zeros_nth nt _ Hk))
      as (y & Ey & Hy).
    exists y. split; [exact Ey|]. intro j. rewrite Hy, N.bits_0. clear Hy.
    assert (Hrow : forall i st, nth_error A (N.to_nat i) = Some st ->
      exists z, nth_error (transmap_row nt eclo st) (N.to_nat t) = Some z /\
        forall j, N.testbit z j = true <-> exists d, In (Some t, d) (n_trans st) /\ eps A d j).
    { intros i st Hst.
      destruct (transmap_fold nt eclo (N.to_nat t) Hk (n_trans st) _ 0 (zeros_nth nt _ Hk)) as (z & Ez & Hz).
      exists z. split; [exact Ez|]. intro k. rewrite Hz, N.bits_0, N2Nat.id. split.
      - intros [K|(d & K1 & K2)]; [discriminate|]. exists d. split; [exact K1|]. apply Heclo; [|exact K2].
        apply (Hwf i st _ d Hst K1).
      - intros (d & K1 & K2). right. exists d. split; [exact K1|]. apply Heclo; [|exact K2].
        apply (Hwf i st _ d Hst K1). }
    split.
    - intros [K|(i & row & z & K1 & K2 & K3 & K4)]; [discriminate|].
      apply bits_spec in K1. unfold tm, build_transmap in K2. rewrite aget_of, nth_error_map in K2.
      destruct (nth_error A (N.to_nat i)) as [st|] eqn:Est; [|discriminate]. injection K2 as <-.
      destruct (Hrow i st Est) as (z' & Ez & Hz). rewrite Ez in K3. injection K3 as ->.
      apply Hz in K4. destruct K4 as (d & D1 & D2). exists i, d. split; [exact K1|]. split; [|exact D2].
      exists st. auto.
    - intros (i & d & K1 & (st & Est & K2) & K3). right. destruct (Hrow i st Est) as (z & Ez & Hz).
      exists i, (transmap_row nt eclo st), z. split; [apply bits_spec; exact K1|].
      split; [|split; [exact Ez|apply Hz; eauto]].
      unfold tm, build_transmap. rewrite aget_of, nth_error_map, Est. reflexivity.
  Qed.
End Successors.

Lemma path_snoc A : forall s w t s', path A s (w ++ [t]) s' <->
  exists s1 s2, path A s w s1 /\ edge A s1 (Some t) s2 /\ eps A s2 s'.
Proof.
  intros s w t s'. split.
  - intro H. remember (w ++ [t]) as u eqn:E. revert w E.
    induction H as [s|s s1 u s2 He Hp IH|s t' s1 u s2 He Hp IH]; intros w E.
    + destruct w; discriminate.
    + destruct (IH w E) as (a & b & P & Q & R). exists a, b. split; [eapply path_eps; eauto|auto].
    + destruct w as [|x w]; cbn [app] in E.
      * injection E as -> ->. exists s, s1. split; [constructor|]. auto.
      * injection E as -> ->. destruct (IH w eq_refl) as (a & b & P & Q & R).
        exists a, b. split; [eapply path_tok; eauto|auto].
  - intros (s1 & s2 & P & Q & R). eapply path_app; [exact P|].
    eapply path_tok; [exact Q|exact R].
Qed.

Lemma path_unsnoc_nil A s s' : path A s [] s' <-> eps A s s'.
Proof. reflexivity. Qed.

(* ---- the hash table ------------------------------------------------------- *)

Lemma find_chain_some sig bm : forall c i, find_chain sig bm c = Some i -> In (sig, bm, i) c.
Proof.
  induction c as [|[[s b] k] c IH]; intros i H; cbn [find_chain] in H; [discriminate|].
  destruct (N.eqb_spec sig s) as [->|]; [destruct (N.eqb_spec bm b) as [->|]|].
  - injection H as ->. left. reflexivity.
  - right. apply IH. exact H.
  - right. apply IH. exact H.
Qed.

Lemma find_chain_none sig bm : forall c, find_chain sig bm c = None -> forall i, ~ In (sig, bm, i) c.
Proof.
  induction c as [|[[s b] k] c IH]; intros H i K; cbn [find_chain] in H; [destruct K|].
  destruct (N.eqb_spec sig s) as [->|Hs]; [destruct (N.eqb_spec bm b) as [->|Hb]|].
  - discriminate.
  - destruct K as [K|K]; [injection K; congruence|]. eapply IH; eauto.
  - destruct K as [K|K]; [injection K; congruence|]. eapply IH; eauto.
Qed.

(* the table lists exactly the known sets *)
Definition hash_ok (nru : N) (h : htable) (bms : list N) : Prop :=
  (forall k s b i, In (s, b, i) (chain_of h k) -> nth_error bms (N.to_nat i) = Some b) /\
  (forall i b, nth_error bms i = Some b ->
     In (signature nru b, b, N.of_nat i) (chain_of h (fold_signature (signature nru b)))).

Lemma find_dfa_some nru h bms bm i : hash_ok nru h bms -> find_dfa nru h bm = Some i ->
  nth_error bms (N.to_nat i) = Some bm.
Proof. intros [H _] E. apply find_chain_some in E. eapply H; eauto. Qed.

Lemma find_dfa_none nru h bms bm : hash_ok nru h bms -> find_dfa nru h bm = None -> ~ In bm bms.
Proof.
  intros [_ H] E K. apply In_nth_error in K. destruct K as [i Hi]. apply H in Hi.
  eapply find_chain_none; eauto.
Qed.

Lemma hash_add nru h bms bm k :
  hash_ok nru h bms -> k = fold_signature (signature nru bm) ->
  hash_ok nru (aset h k ((signature nru bm, bm, N.of_nat (List.length bms)) :: chain_of h k)) (bms ++ [bm]).
Proof.
  intros [H1 H2] ->. set (k := fold_signature (signature nru bm)).
  assert (Hc : forall k', chain_of (aset h k ((signature nru bm, bm, N.of_nat (List.length bms)) :: chain_of h k)) k' =
     if k' =? k then (signature nru bm, bm, N.of_nat (List.length bms)) :: chain_of h k else chain_of h k').
  { intro k'. unfold chain_of at 1. rewrite aget_set. destruct (k' =? k); reflexivity. }
  split.
  - intros k' s b i H. rewrite Hc in H.
    assert (Hold : forall k'', In (s, b, i) (chain_of h k'') -> nth_error (bms ++ [bm]) (N.to_nat i) = Some b).
    { intros k'' K. apply H1 in K. rewrite nth_error_app1; [exact K|]. apply nth_error_Some. congruence. }
    destruct (N.eqb_spec k' k) as [->|Hne]; [|eapply Hold; eauto].
    destruct H as [H|H]; [|eapply Hold; eauto]. injection H as <- <- <-.
    rewrite Nat2N.id, nth_error_app2 by lia. rewrite Nat.sub_diag. reflexivity.
  - intros i b H. rewrite Hc. destruct (Nat.lt_ge_cases i (List.length bms)) as [L|L].
    + rewrite nth_error_app1 in H by exact L. apply H2 in H.
      destruct (N.eqb_spec (fold_signature (signature nru b)) k) as [E|E]; [|exact H].
      right. rewrite <- E. exact H.
    + rewrite nth_error_app2 in H by exact L. destruct (i - List.length bms)%nat eqn:E.
      2:{ destruct n; discriminate. }
      cbn in H. injection H as <-. fold k. rewrite N.eqb_refl. left. f_equal. lia.
Qed.

(* ---- the construction ------------------------------------------------------ *)

Section Build.
  Variable src : source.
  Let A := s_nfa src.
  Let n := N.of_nat (List.length A).
  Let nru := round_up n.
  Let nfa := aof A.
  Let nt := s_ntok src.
  Hypothesis Hwf : wf_nfa nt A.
  Hypothesis Hstart : s_start src < n.
  Variable eclo : arr N.
  Hypothesis Heclo : forall i j, i < n -> (N.testbit (row_of eclo i) j = true <-> eps A i j).
  Let tm := build_transmap nt eclo A.
  Let start := row_of eclo (s_start src).

  Definition bounded (bm : N) : Prop := forall j, N.testbit bm j = true -> j < n.

  Lemma edge_lt' s l d : edge A s l d -> d < n.
  Proof. intros (st & H1 & H2). apply (Hwf s st l d H1 H2). Qed.

  Lemma path_lt' s w s' : path A s w s' -> s < n -> s' < n.
  Proof. apply path_lt. intros a st l d H1 H2. apply (Hwf a st l d H1 H2). Qed.

  Lemma bounded_lt bm : bounded bm -> bm < N.shiftl 1 n.
  Proof.
    intro H. rewrite N.shiftl_1_l. destruct (N.eq_dec bm 0) as [->|Hz].
    - apply N.neq_0_lt_0. apply N.pow_nonzero. lia.
    - apply N.log2_lt_pow2; [lia|]. apply H. apply N.bit_log2. exact Hz.
  Qed.

  (* the label of a state *)
  Definition labels (amb0 : bool) (bm : N) (res : option string) (early : bool) (attr : option string) : Prop :=
    exists amb, reduce src nfa bm = Ok (res, early, attr, amb) /\ (amb = true -> amb0 = true).

  Definition arc (bms : list N) (y : N) (o : option N) : Prop :=
    match o with
    | None => y = 0
    | Some k => y <> 0 /\ nth_error bms (N.to_nat k) = Some y
    end.

  Definition node_ok (amb0 : bool) (bms : list N) (bm : N) (d : dnode) : Prop :=
    labels amb0 bm (d_result d) (d_early d) (d_attr d) /\
    (if d_early d then d_map d = map (fun _ => None) (upto nt)
     else Forall2 (arc bms) (successors nt tm bm) (d_map d)).

  Definition known (off : nat) (st : dstate) (bms : list N) : Prop :=
    List.length bms = N.to_nat (ds_n st) /\ NoDup bms /\ Forall bounded bms /\
    hash_ok nru (ds_hash st) bms /\
    List.length bms = (off + List.length (ds_todo st))%nat /\
    (forall i q, nth_error (ds_todo st) i = Some q ->
       nth_error bms (off + i) = Some (q_nfas q) /\
       labels (ds_amb st) (q_nfas q) (q_result q) (q_early q) (q_attr q)).

  Lemma labels_mono a b bm r e t : (a = true -> b = true) -> labels a bm r e t -> labels b bm r e t.
  Proof. intros H (m & E & K). exists m. auto. Qed.

  Lemma add_dfa_ok off st bms bm st' :
    known off st bms -> bounded bm -> ~ In bm bms ->
    add_dfa src nfa nru st bm = Ok st' ->
    known off st' (bms ++ [bm]) /\ ds_done st' = ds_done st /\
    (ds_amb st = true -> ds_amb st' = true).
  Proof.
    intros (K1 & K2 & K3 & K4 & K5 & K6) Hb Hn E. unfold add_dfa in E.
    destruct (reduce src nfa bm) as [[[[res early] attr] amb]| | | |] eqn:Er; try discriminate.
    cbn [obind] in E. injection E as <-. cbn [ds_done ds_amb].
    split; [|split; [reflexivity|intros ->; reflexivity]].
    unfold known. cbn [ds_n ds_hash ds_todo ds_amb]. rewrite app_length. cbn [List.length].
    split; [lia|]. split.
    { apply NoDup_rev in K2. rewrite <- (rev_involutive (bms ++ [bm])). apply NoDup_rev.
      rewrite rev_app_distr. cbn [rev app]. constructor; [|exact K2]. rewrite <- in_rev. exact Hn. }
    split; [apply Forall_app; split; [exact K3|]; constructor; [exact Hb|constructor]|].
    split.
    { replace (ds_n st) with (N.of_nat (List.length bms)) by lia. apply hash_add; [exact K4|reflexivity]. }
    split; [rewrite app_length; cbn [List.length]; lia|].
    intros i q H. destruct (Nat.lt_ge_cases i (List.length (ds_todo st))) as [L|L].
    - rewrite nth_error_app1 in H by exact L. destruct (K6 i q H) as [E1 E2]. split.
      + rewrite nth_error_app1 by (rewrite K5; lia). exact E1.
      + eapply labels_mono; [|exact E2]. intros ->. reflexivity.
    - rewrite nth_error_app2 in H by exact L.
      destruct (i - List.length (ds_todo st))%nat eqn:Ei; [|destruct n0; discriminate].
      cbn in H. injection H as <-. cbn [q_nfas q_result q_early q_attr]. split.
      + rewrite nth_error_app2 by lia. replace (off + i - List.length bms)%nat with O by lia. reflexivity.
      + exists amb. split; [exact Er|]. intros ->. apply orb_true_r.
  Qed.

  Lemma arc_mono bms ext y o : arc bms y o -> arc (bms ++ ext) y o.
  Proof.
    destruct o; cbn [arc]; [|auto]. intros [H1 H2]. split; [exact H1|].
    rewrite nth_error_app1; [exact H2|]. apply nth_error_Some. congruence.
  Qed.

  Lemma arcs_mono bms ext l l' : Forall2 (arc bms) l l' -> Forall2 (arc (bms ++ ext)) l l'.
  Proof. intro F. induction F; constructor; auto using arc_mono. Qed.

  Lemma fold_visit_err : forall l (e : outcome (dstate * list (option N))),
    (forall v, e <> Ok v) -> fold_left (visit src nfa nru) l e = e.
  Proof.
    induction l as [|y l IH]; intros e H; cbn [fold_left]; [reflexivity|].
    assert (E : visit src nfa nru e y = e).
    { unfold visit. destruct e as [v| | | |]; try reflexivity. exfalso. eapply H. reflexivity. }
    rewrite E. apply IH. exact H.
  Qed.

  Lemma visits_ok off : forall l st m bms st' m',
    known off st bms -> Forall bounded l ->
    fold_left (visit src nfa nru) l (Ok (st, m)) = Ok (st', m') ->
    exists ext l', known off st' (bms ++ ext) /\ ds_done st' = ds_done st /\
      (ds_amb st = true -> ds_amb st' = true) /\
      m' = rev l' ++ m /\ Forall2 (arc (bms ++ ext)) l l'.
  Proof.
    induction l as [|y l IH]; intros st m bms st' m' K F E; cbn [fold_left] in E.
    - injection E as <- <-. exists [], []. rewrite app_nil_r. auto.
    - inversion F as [|? ? Fy F']; subst. unfold visit at 2 in E. cbn [obind] in E.
      destruct (N.eqb_spec y 0) as [->|Hy].
      + destruct (IH _ _ _ _ _ K F' E) as (ext & l' & K' & D & M & -> & F2).
        exists ext, (None :: l'). split; [exact K'|]. split; [exact D|]. split; [exact M|].
        cbn [rev]. rewrite <- app_assoc. split; [reflexivity|]. constructor; [reflexivity|exact F2].
      + destruct (find_dfa nru (ds_hash st) y) as [i|] eqn:Ef.
        * destruct (IH _ _ _ _ _ K F' E) as (ext & l' & K' & D & M & -> & F2).
          exists ext, (Some i :: l'). split; [exact K'|]. split; [exact D|]. split; [exact M|].
          cbn [rev]. rewrite <- app_assoc. split; [reflexivity|]. constructor; [|exact F2].
          apply arc_mono. cbn [arc]. split; [exact Hy|]. eapply find_dfa_some; [|exact Ef]. apply K.
        * destruct (add_dfa src nfa nru st y) as [st1| | | |] eqn:Ea; cbn [obind] in E;
            try (rewrite fold_visit_err in E by discriminate; discriminate).
          assert (Hn : ~ In y bms) by (eapply find_dfa_none; [|exact Ef]; apply K).
          assert (Hlen : List.length bms = N.to_nat (ds_n st)) by apply K.
          destruct (add_dfa_ok off st bms y st1 K Fy Hn Ea) as (K1 & D1 & M1).
          destruct (IH _ _ _ _ _ K1 F' E) as (ext & l' & K' & D & M & -> & F2).
          exists (y :: ext), (Some (ds_n st) :: l'). rewrite <- app_assoc in K', F2. cbn [app] in K', F2.
          split; [exact K'|]. split; [congruence|]. split; [auto|].
          cbn [rev]. rewrite <- app_assoc. split; [reflexivity|]. constructor; [|exact F2].
          cbn [arc]. split; [exact Hy|]. rewrite <- Hlen, nth_error_app2 by lia.
          rewrite Nat.sub_diag. reflexivity.
  Qed.

  Lemma successors_bounded bm : Forall bounded (successors nt tm bm).
  Proof.
    apply Forall_forall. intros y Hy. apply In_nth_error in Hy. destruct Hy as [k Hk].
    assert (L : (k < N.to_nat nt)%nat).
    { erewrite <- (successors_length nt tm bm); [|apply tm_length]. apply nth_error_Some. congruence. }
    destruct (successors_spec A nt Hwf eclo Heclo bm (N.of_nat k)) as (y' & E & H); [lia|].
    rewrite Nat2N.id in E. fold tm in E. rewrite Hk in E. injection E as <-.
    intros j Hj. apply H in Hj. destruct Hj as (i & d & _ & K1 & K2).
    apply (path_lt' d [] j); [exact K2|eapply edge_lt'; eauto].
  Qed.

  Definition binv (st : dstate) : Prop := exists bms,
    known (List.length (ds_done st)) st bms /\
    nth_error bms 0 = Some start /\
    (forall i d, nth_error (rev (ds_done st)) i = Some d ->
       exists bm, nth_error bms i = Some bm /\ node_ok (ds_amb st) bms bm d).

  Definition bfinal (r : outcome (list dnode * bool)) : Prop :=
    match r with
    | Ok (d, amb) => exists bms,
        List.length bms = List.length d /\
        nth_error bms 0 = Some start /\
        (forall i x, nth_error d i = Some x ->
           exists bm, nth_error bms i = Some bm /\ node_ok amb bms bm x)
    | NoFuel => True
    | Exit c => c = 2
    | Abort => False
    | UB _ => False
    end.

  Lemma reduce_outcome bm : match reduce src nfa bm with
                            | Ok _ => True | NoFuel => True | Exit c => c = 2 | _ => False end.
  Proof.
    assert (Hsym : forall x l, match set_symbols x l with Ok _ => True | Exit c => c = 2 | _ => False end).
    { intros x l. induction l as [|t l IH]; cbn [set_symbols]; [exact I|].
      destruct (find_symbol (ev_syms x) t); [reflexivity|].
      destruct (set_symbols x l); cbn [obind]; auto. }
    assert (P : forall x tags rules m, match pick_rule x tags rules m with Ok _ => True | NoFuel => True | _ => False end).
    { intros x tags. induction rules as [|q rules IH]; intro m; cbn [pick_rule]; [exact I|].
      destruct (eval_outcome x tags (match m with Some _ => true | None => false end)
                 (S (List.length (ev_syms x))) (r_expr q)) as [[b E]|E]; rewrite E; cbn [obind]; [|exact I].
      destruct b; [destruct m; [exact I|apply IH]|apply IH]. }
    unfold reduce, evaluate_result.
    pose proof (Hsym (s_exit src) (tags_of n_exit nfa bm)) as S1.
    destruct (set_symbols (s_exit src) _) as [te| | | |]; cbn [obind]; auto.
    pose proof (P (s_exit src) te (ev_results (s_exit src)) None) as P1.
    destruct (pick_rule (s_exit src) te _ None) as [[re ok1]| | | |]; cbn [obind]; auto; try contradiction.
    pose proof (Hsym (s_attr src) (tags_of n_attr nfa bm)) as S2.
    destruct (set_symbols (s_attr src) _) as [ta| | | |]; cbn [obind]; auto.
    pose proof (P (s_attr src) ta (ev_results (s_attr src)) None) as P2.
    destruct (pick_rule (s_attr src) ta _ None) as [[ra ok2]| | | |]; cbn [obind]; auto; try contradiction.
  Qed.

  Lemma add_dfa_outcome st bm : match add_dfa src nfa nru st bm with
                            | Ok _ => True | NoFuel => True | Exit c => c = 2 | _ => False end.
  Proof.
    unfold add_dfa. pose proof (reduce_outcome bm) as R.
    destruct (reduce src nfa bm) as [[[[? ?] ?] ?]| | | |]; cbn [obind]; auto.
  Qed.

  Lemma fold_visit_outcome : forall l e,
    match e with Ok _ => True | NoFuel => True | Exit c => c = 2 | _ => False end ->
    match fold_left (visit src nfa nru) l e with
    | Ok _ => True | NoFuel => True | Exit c => c = 2 | _ => False end.
  Proof.
    induction l as [|y l IH]; intros e He; cbn [fold_left]; [exact He|]. apply IH.
    unfold visit. destruct e as [[st m]| | | |]; cbn [obind]; auto.
    destruct (y =? 0); [exact I|]. destruct (find_dfa nru (ds_hash st) y); [exact I|].
    pose proof (add_dfa_outcome st y) as R. destruct (add_dfa src nfa nru st y); cbn [obind]; auto.
  Qed.

  Lemma build_step_ok st : binv st ->
    match build_step src nfa tm nru st with
    | inl st' => binv st' /\ N.of_nat (List.length (ds_done st')) = N.succ (N.of_nat (List.length (ds_done st)))
                 /\ N.of_nat (List.length (ds_done st)) < N.shiftl 1 n
    | inr r => bfinal r
    end.
  Proof.
    intros (bms & K & Hs & Hd). unfold build_step.
    assert (Hcount : (List.length bms <= N.to_nat (N.shiftl 1 n))%nat).
    { destruct K as (_ & Nd & Fb & _). rewrite <- (upto_length (N.shiftl 1 n)).
      apply NoDup_incl_length; [exact Nd|]. intros bm Hbm. apply upto_in. apply bounded_lt.
      rewrite Forall_forall in Fb. apply Fb. exact Hbm. }
    destruct (ds_todo st) as [|q todo] eqn:Et.
    - cbn [bfinal]. exists bms. destruct K as (K1 & K2 & K3 & K4 & K5 & K6). rewrite Et in K5.
      split; [rewrite rev_length; cbn in K5; lia|]. auto.
    - assert (Kq : nth_error bms (List.length (ds_done st)) = Some (q_nfas q) /\
                   labels (ds_amb st) (q_nfas q) (q_result q) (q_early q) (q_attr q)).
      { destruct K as (_ & _ & _ & _ & _ & K6). destruct (K6 O q) as [E1 E2]; [rewrite Et; reflexivity|].
        rewrite Nat.add_0_r in E1. auto. }
      destruct Kq as [Eq Lq].
      assert (Llt : (List.length (ds_done st) < List.length bms)%nat) by (apply nth_error_Some; congruence).
      assert (K' : known (S (List.length (ds_done st)))
                     (DState (ds_done st) todo (ds_hash st) (ds_n st) (ds_amb st)) bms).
      { destruct K as (K1 & K2 & K3 & K4 & K5 & K6). unfold known. cbn [ds_n ds_hash ds_todo ds_amb].
        rewrite Et in K5. cbn [List.length] in K5.
        split; [exact K1|]. split; [exact K2|]. split; [exact K3|]. split; [exact K4|]. split; [lia|].
        intros i q' H. replace (S (List.length (ds_done st)) + i)%nat with (List.length (ds_done st) + S i)%nat by lia.
        apply K6. rewrite Et. exact H. }
      destruct (q_early q) eqn:Eearly.
      + cbn [ds_done List.length]. split; [|split; lia]. exists bms.
        cbn [ds_done ds_amb List.length]. split; [exact K'|]. split; [exact Hs|].
        intros i d H. cbn [rev] in H. destruct (Nat.lt_ge_cases i (List.length (ds_done st))) as [L|L].
        * rewrite nth_error_app1 in H by (rewrite rev_length; exact L). apply Hd. exact H.
        * rewrite nth_error_app2, rev_length in H by (rewrite rev_length; exact L).
          destruct (i - List.length (ds_done st))%nat eqn:Ei; [|destruct n0; discriminate].
          cbn in H. injection H as <-. replace i with (List.length (ds_done st)) by lia.
          exists (q_nfas q). split; [exact Eq|]. split; [exact Lq|]. reflexivity.
      + pose proof (fold_visit_outcome (successors (s_ntok src) tm (q_nfas q))
          (Ok (DState (ds_done st) todo (ds_hash st) (ds_n st) (ds_amb st), [])) I) as Hout.
        destruct (fold_left (visit src nfa nru) (successors (s_ntok src) tm (q_nfas q)) _)
          as [[st1 m]| | | |] eqn:Ev; try contradiction; try exact I; try exact Hout.
        destruct (visits_ok _ _ _ _ _ _ _ K' (successors_bounded (q_nfas q)) Ev) as (ext & l' & K1 & D1 & M1 & -> & F2).
        cbn [ds_done ds_amb] in D1, M1. cbn [ds_done List.length]. rewrite D1. split; [|split; lia].
        exists (bms ++ ext). cbn [ds_done ds_amb List.length]. split; [|split].
        * destruct K1 as (X1 & X2 & X3 & X4 & X5 & X6). unfold known. cbn [ds_n ds_hash ds_todo ds_amb]. auto 10.
        * rewrite nth_error_app1 by lia. exact Hs.
        * intros i d H. cbn [rev] in H. destruct (Nat.lt_ge_cases i (List.length (ds_done st))) as [L|L].
          -- rewrite nth_error_app1 in H by (rewrite rev_length; exact L).
             destruct (Hd i d H) as (bm & E1 & N1 & N2). exists bm.
             split; [rewrite nth_error_app1 by lia; exact E1|]. split.
             ++ eapply labels_mono; [|exact N1]. exact M1.
             ++ destruct (d_early d); [exact N2|]. apply arcs_mono. exact N2.
          -- rewrite nth_error_app2, rev_length in H by (rewrite rev_length; exact L).
             destruct (i - List.length (ds_done st))%nat eqn:Ei; [|destruct n0; discriminate].
             cbn in H. injection H as <-. replace i with (List.length (ds_done st)) by lia.
             exists (q_nfas q). split; [rewrite nth_error_app1 by lia; exact Eq|]. split.
             ++ cbn [d_result d_early d_attr]. eapply labels_mono; [exact M1|exact Lq].
             ++ cbn [d_early d_map]. rewrite app_nil_r, rev_involutive. exact F2.
  Qed.

  Lemma build_loop_ok st : binv st -> ds_done st = [] ->
    exists r, loop (build_step src nfa tm nru) (N.succ_pos (N.shiftl 1 n)) st = inr r /\ bfinal r.
  Proof.
    intros B E0.
    destruct (loop_measure (build_step src nfa tm nru) binv
                (fun st => N.shiftl 1 n - N.of_nat (List.length (ds_done st)))
                (N.succ_pos (N.shiftl 1 n)) st) as [r Er].
    - intros s s' Bs E. pose proof (build_step_ok s Bs) as K. rewrite E in K.
      destruct K as (K1 & K2 & K3). split; [exact K1|lia].
    - exact B.
    - rewrite N.succ_pos_spec. lia.
    - exists r. split; [exact Er|].
      pose proof (loop_inv (build_step src nfa tm nru) binv bfinal) as L.
      specialize (L ltac:(intros s s' Bs E; pose proof (build_step_ok s Bs) as K; rewrite E in K; exact (proj1 K))
                    ltac:(intros s s' Bs E; pose proof (build_step_ok s Bs) as K; rewrite E in K; exact K)
                    (N.succ_pos (N.shiftl 1 n)) st B).
      rewrite Er in L. exact L.
  Qed.

  Lemma start_bounded : bounded start.
  Proof.
    intros j Hj. apply Heclo in Hj; [|exact Hstart]. apply (path_lt' (s_start src) [] j); [exact Hj|exact Hstart].
  Qed.

  Lemma build_start st : add_dfa src nfa nru (DState [] [] (aof []) 0 false) start = Ok st ->
    binv st /\ ds_done st = [].
  Proof.
    intro E. assert (K0 : known 0 (DState [] [] (aof []) 0 false) []).
    { unfold known. cbn [ds_n ds_hash ds_todo ds_amb]. split; [reflexivity|]. split; [constructor|].
      split; [constructor|]. split; [split|].
      - intros k s b i H. unfold chain_of in H. rewrite aget_of in H. destruct (N.to_nat k); destruct H.
      - intros [|i] b H; discriminate.
      - split; [reflexivity|]. intros [|i] q H; discriminate. }
    destruct (add_dfa_ok 0 _ [] start st K0 start_bounded (fun H => H) E) as (K & D & _).
    cbn [ds_done] in D. split; [|exact D]. exists [start]. rewrite D. cbn [List.length rev].
    split; [exact K|]. split; [reflexivity|]. intros [|i] d H; discriminate.
  Qed.

  (* ---- what the finished machine does ---- *)

  Definition holds (bm : N) (w : list N) : Prop :=
    forall j, N.testbit bm j = true <-> path A (s_start src) w j.

  Lemma set_symbols_ok x : forall l r, set_symbols x l = Ok r -> r = l.
  Proof.
    induction l as [|t l IH]; intros r H; cbn [set_symbols] in H; [congruence|].
    destruct (find_symbol (ev_syms x) t); [discriminate|].
    destruct (set_symbols x l); try discriminate. cbn [obind] in H. injection H as <-.
    f_equal. apply IH. reflexivity.
  Qed.

  Lemma tags_spec field bm w : holds bm w -> forall s,
    tag_set (tags_of field nfa bm) s = true <-> tags_after field A (s_start src) w s.
  Proof.
    intros H s. unfold tag_set, tags_of, tags_after. rewrite existsb_exists. split.
    - intros (t & Ht & E). apply String.eqb_eq in E. subst t. apply in_flat_map in Ht.
      destruct Ht as (j & Hj & Ht). apply bits_spec, H in Hj. unfold nfa in Ht. rewrite aget_of in Ht.
      destruct (nth_error A (N.to_nat j)) as [st|] eqn:E; [|destruct Ht]. exists j, st. auto.
    - intros (j & st & Hj & Est & Hin). exists s. split; [|apply String.eqb_refl].
      apply in_flat_map. exists j. split; [apply bits_spec, H; exact Hj|].
      unfold nfa. rewrite aget_of, Est. exact Hin.
  Qed.

  Lemma labels_rules bm w res early attr : holds bm w -> labels false bm res early attr ->
    exists re ra, exit_rule src w re /\ attr_rule src w ra /\
      res = option_map r_result re /\ attr = option_map r_result ra /\
      early = match re with Some r => r_early r | None => false end.
  Proof.
    intros H (amb & E & Ha). destruct amb; [discriminate (Ha eq_refl)|]. unfold reduce in E.
    destruct (set_symbols (s_exit src) _) as [te| | | |] eqn:E1; try discriminate. cbn [obind] in E.
    destruct (evaluate_result (s_exit src) te) as [[re ok1]| | | |] eqn:E2; try discriminate. cbn [obind] in E.
    destruct (set_symbols (s_attr src) _) as [ta| | | |] eqn:E3; try discriminate. cbn [obind] in E.
    destruct (evaluate_result (s_attr src) ta) as [[ra ok2]| | | |] eqn:E4; try discriminate. cbn [obind] in E.
    injection E as <- <- <- Eok. apply orb_false_elim in Eok. destruct Eok as [O1 O2].
    apply negb_false_iff in O1, O2. subst ok1 ok2.
    apply set_symbols_ok in E1, E3. subst te ta. exists re, ra.
    split; [|split; [|auto]].
    - eapply evaluate_selects; [|exact E2]. apply tags_spec. exact H.
    - eapply evaluate_selects; [|exact E4]. apply tags_spec. exact H.
  Qed.

  Section Run.
    Variable dfas : list dnode.
    Variable bms : list N.
    Hypothesis Hlen : List.length bms = List.length dfas.
    Hypothesis H0 : nth_error bms 0 = Some start.
    Hypothesis Hnodes : forall i x, nth_error dfas i = Some x ->
           exists bm, nth_error bms i = Some bm /\ node_ok false bms bm x.
    Let rows := map d_map dfas.

    Lemma node_of i bm : nth_error bms i = Some bm ->
      exists d, nth_error dfas i = Some d /\ node_ok false bms bm d.
    Proof.
      intro H. destruct (nth_error dfas i) as [d|] eqn:E.
      - destruct (Hnodes i d E) as (bm' & E' & K). rewrite H in E'. injection E' as <-. eauto.
      - apply nth_error_None in E. assert (i < List.length bms)%nat by (apply nth_error_Some; congruence). lia.
    Qed.

    Lemma holds_start : holds start [].
    Proof. intro j. apply Heclo. exact Hstart. Qed.

    Lemma successor_holds bm w t y : holds bm w -> t < nt ->
      nth_error (successors nt tm bm) (N.to_nat t) = Some y -> holds y (w ++ [t]).
    Proof.
      intros H Ht E. destruct (successors_spec A nt Hwf eclo Heclo bm t Ht) as (y' & E' & Hy).
      fold tm in E'. rewrite E in E'. injection E' as <-. intro j. rewrite Hy, path_snoc. split.
      - intros (i & d & K1 & K2 & K3). exists i, d. split; [apply H; exact K1|auto].
      - intros (i & d & K1 & K2 & K3). exists i, d. split; [apply H; exact K1|auto].
    Qed.

    Lemma forall2_nth {X Y} (R : X -> Y -> Prop) : forall l l', Forall2 R l l' ->
      forall k y, nth_error l' k = Some y -> exists x, nth_error l k = Some x /\ R x y.
    Proof.
      intros l l' F. induction F; intros [|k] z H1; try discriminate; cbn in *.
      - injection H1 as <-. eauto.
      - apply IHF. exact H1.
    Qed.

    Lemma forall2_length {X Y} (R : X -> Y -> Prop) l l' : Forall2 R l l' -> List.length l = List.length l'.
    Proof. intro F. induction F; cbn [List.length]; congruence. Qed.

    Lemma entry_row i d t : nth_error dfas (N.to_nat i) = Some d ->
      entry rows i t = match nth_error (d_map d) (N.to_nat t) with Some x => x | None => None end.
    Proof. apply entry_at. Qed.

    Lemma map_length_ok i d : nth_error dfas i = Some d -> List.length (d_map d) = N.to_nat nt.
    Proof.
      intro H. destruct (Hnodes i d H) as (bm & _ & _ & M). destruct (d_early d).
      - rewrite M, map_length, upto_length. reflexivity.
      - apply forall2_length in M. rewrite <- M. apply successors_length. apply tm_length.
    Qed.

    (* a live walk: the state stands for the set of NFA states reached *)
    Lemma walk_some : forall w i, walk rows (Some 0) w = Some i ->
      (exists bm, nth_error bms (N.to_nat i) = Some bm /\ bm <> 0 /\ holds bm w) /\ not_ended src w.
    Proof.
      induction w as [|t w IH] using rev_ind; intros i H.
      - cbn in H. injection H as <-. split.
        + exists start. split; [exact H0|]. split; [|exact holds_start].
          intro E. pose proof (proj2 (holds_start (s_start src)) (path_nil _ _)) as K. rewrite E, N.bits_0 in K. discriminate.
        + intros u t v r E. destruct u; discriminate.
      - rewrite walk_app in H. destruct (walk rows (Some 0) w) as [i0|] eqn:Ew; [|discriminate].
        cbn [walk] in H. destruct (IH i0 eq_refl) as [(bm & Ebm & Hz & Hbm) Hne].
        destruct (node_of _ _ Ebm) as (d & Ed & Lab & M).
        rewrite (entry_row i0 d t Ed) in H.
        destruct (nth_error (d_map d) (N.to_nat t)) as [o|] eqn:Eo; [|discriminate]. subst o.
        assert (Ht : t < nt).
        { pose proof (map_length_ok _ _ Ed).
          assert (N.to_nat t < List.length (d_map d))%nat by (apply nth_error_Some; congruence). lia. }
        destruct (labels_rules bm w _ _ _ Hbm Lab) as (re & ra & R1 & R2 & R3 & R4 & R5).
        destruct (d_early d) eqn:Ee.
        { rewrite M in Eo. rewrite nth_error_map in Eo. destruct (nth_error (upto nt) (N.to_nat t)); discriminate. }
        destruct (forall2_nth _ _ _ M _ _ Eo) as (y & Ey & Hyz & Hy). split.
        + exists y. split; [exact Hy|]. split; [exact Hyz|]. eapply successor_holds; eauto.
        + intros u t' v r E Hr. destruct v as [|t'' v].
          * apply app_inj_tail in E. destruct E as [<- <-].
            pose proof (selects_fun _ _ _ R1 _ Hr) as Er. subst re. congruence.
          * assert (Ew' : w = u ++ t' :: removelast (t'' :: v)).
            { rewrite (app_removelast_last 0 (l := t'' :: v)) in E by discriminate.
              change (t' :: removelast (t'' :: v) ++ [last (t'' :: v) 0])
                with ((t' :: removelast (t'' :: v)) ++ [last (t'' :: v) 0]) in E.
              rewrite app_assoc in E. apply app_inj_tail in E. apply E. }
            eapply Hne; eauto.
    Qed.

    Lemma not_ended_prefix u v : not_ended src (u ++ v) -> not_ended src u.
    Proof.
      intros H a t b r E Hr. apply (H a t (b ++ v) r); [|exact Hr]. rewrite E, <- app_assoc. reflexivity.
    Qed.

    Lemma walk_alive : forall w s, path A (s_start src) w s -> not_ended src w ->
      exists i, walk rows (Some 0) w = Some i.
    Proof.
      induction w as [|t w IH] using rev_ind; intros s Hp Hne.
      - exists 0. reflexivity.
      - pose proof Hp as Hp'. apply path_snoc in Hp'. destruct Hp' as (s1 & s2 & P1 & P2 & P3).
        destruct (IH s1 P1 (not_ended_prefix _ _ Hne)) as [i Ei]. rewrite walk_app, Ei. cbn [walk].
        destruct (walk_some w i Ei) as [(bm & Ebm & Hz & Hbm) _].
        destruct (node_of _ _ Ebm) as (d & Ed & Lab & M). rewrite (entry_row i d t Ed).
        destruct (labels_rules bm w _ _ _ Hbm Lab) as (re & ra & R1 & R2 & R3 & R4 & R5).
        assert (Ee : d_early d = false).
        { rewrite R5. destruct re as [r|]; [|reflexivity]. apply (Hne w t [] r); [reflexivity|exact R1]. }
        rewrite Ee in M.
        assert (Ht : t < nt).
        { destruct P2 as (st & E1 & E2). apply (Hwf s1 st (Some t) s2 E1 E2). }
        destruct (nth_error (d_map d) (N.to_nat t)) as [o|] eqn:Eo.
        2:{ apply nth_error_None in Eo. rewrite (map_length_ok _ _ Ed) in Eo. lia. }
        destruct (forall2_nth _ _ _ M _ _ Eo) as (y & Ey & Hy). destruct o as [k|]; [eauto|].
        cbn [arc] in Hy. pose proof (successor_holds bm w t y Hbm Ht Ey s) as K.
        rewrite Hy, N.bits_0 in K. apply K in Hp. discriminate.
    Qed.

    Lemma run_closed : closed_table rows.
    Proof.
      apply Forall_forall. intros row Hrow. unfold rows in Hrow. apply in_map_iff in Hrow.
      destruct Hrow as (d & <- & Hd). apply In_nth_error in Hd. destruct Hd as [i Hi].
      destruct (Hnodes i d Hi) as (bm & _ & _ & M). apply Forall_forall. intros o Ho.
      destruct o as [k|]; [|exact I]. destruct (d_early d).
      - rewrite M in Ho. apply in_map_iff in Ho. destruct Ho as (z & E & _). discriminate.
      - apply In_nth_error in Ho. destruct Ho as [j Hj].
        destruct (forall2_nth _ _ _ M _ _ Hj) as (y & _ & _ & Hy).
        assert (N.to_nat k < List.length bms)%nat by (apply nth_error_Some; congruence).
        unfold rows. rewrite map_length. lia.
    Qed.
  End Run.
End Build.
