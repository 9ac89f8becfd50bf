From Coq Require Import String List NArith ZArith Bool Arith Lia.
From Verif Require Import Base TokData TokModel StreamModel TreeModel GrammarData GramModel TraceModel TraceSpec.
From Verif Require Import WalkModel.
Import ListNotations.
Open Scope string_scope.
Open Scope list_scope.

(* ---- the counter ---- *)
Definition step (e : event) (n : nat) : nat := match e with Shift => 0 | Reduce _ _ => S n end.
Fixpoint final (es : list event) (n : nat) : nat := match es with [] => n | e :: es => final es (step e n) end.
Fixpoint peak (es : list event) (n : nat) : nat := match es with [] => n | e :: es => Nat.max n (peak es (step e n)) end.
Lemma final_app a b n : final (a ++ b) n = final b (final a n).
Proof. revert n. induction a as [|e a IH]; intro n; cbn [app final]; [reflexivity | apply IH]. Qed.
Lemma peak_ge es n : n <= peak es n.
Proof. destruct es; cbn [peak]; lia. Qed.
Lemma peak_final es n : final es n <= peak es n.
Proof. revert n. induction es as [|e es IH]; intro n; cbn [peak final]; [lia | specialize (IH (step e n)); lia]. Qed.
Lemma peak_app a b n : peak (a ++ b) n = Nat.max (peak a n) (peak b (final a n)).
Proof. revert n. induction a as [|e a IH]; intro n; cbn [app peak final]; [pose proof (peak_ge b n); lia | rewrite IH; lia]. Qed.
Lemma mono es n m : n <= m -> final es n <= final es m /\ peak es n <= peak es m.
Proof.
  revert n m. induction es as [|e es IH]; intros n m H; cbn [final peak]; [lia |].
  assert (S : step e n <= step e m) by (destruct e; cbn [step]; lia). specialize (IH _ _ S). lia.
Qed.
Lemma shifts_final k n : final (repeat Shift k) n = match k with 0 => n | S _ => 0 end.
Proof. revert n. induction k as [|k IH]; intro n; [reflexivity |]. cbn [repeat final step]. rewrite IH. destruct k; reflexivity. Qed.
Lemma shifts_peak k n : peak (repeat Shift k) n = n.
Proof. revert n. induction k as [|k IH]; intro n; [reflexivity |]. cbn [repeat peak step]. rewrite IH. lia. Qed.

Lemma records_ok es l : peak es (List.length l) <= max_reductions ->
  exists l', records es l = Ok l' /\ List.length l' = final es (List.length l).
Proof.
  revert l. induction es as [|e es IH]; intros l; cbn [peak records final]; intro H; [exists l; auto |].
  destruct e as [|s r]; cbn [record step] in *.
  - cbn [obind]. apply (IH []). cbn [List.length]. lia.
  - pose proof (peak_ge es (S (List.length l))).
    destruct (Nat.ltb_spec (List.length l) max_reductions); [| lia]. cbn [obind].
    assert (E : List.length (l ++ [(s, r)]) = S (List.length l)) by (rewrite app_length; cbn [List.length]; lia).
    rewrite <- E. apply IH. rewrite E. lia.
Qed.
Lemma records_bad es l : List.length l <= max_reductions -> max_reductions < peak es (List.length l) -> records es l = UB UB_bounds.
Proof.
  revert l. induction es as [|e es IH]; intros l B; cbn [peak records]; intro H; [lia |].
  destruct e as [|s r]; cbn [record step] in *.
  - cbn [obind]. apply (IH []); cbn [List.length]; lia.
  - destruct (Nat.ltb_spec (List.length l) max_reductions); cbn [obind]; [| reflexivity].
    assert (E : List.length (l ++ [(s, r)]) = S (List.length l)) by (rewrite app_length; cbn [List.length]; lia).
    apply IH; rewrite E; lia.
Qed.

(* ---- rows ---- *)
Lemma run_final l n : final (run l) n = List.length l + n.
Proof. revert n. induction l as [|x l IH]; intro n; cbn [run map final step List.length]; [reflexivity |]. change (map _ l) with (run l). rewrite IH. lia. Qed.
Lemma rows_peak m es n l0 : rows_of_at_most m (run l0 ++ es) -> List.length l0 = n -> peak es n <= m.
Proof.
  revert n l0. induction es as [|e es IH]; intros n l0 H E; cbn [peak].
  - specialize (H [] l0 [] eq_refl). lia.
  - assert (A : n <= m) by (rewrite <- E; apply (H [] l0 (e :: es) eq_refl)).
    destruct e as [|s r]; cbn [step].
    + assert (B : peak es 0 <= m); [| lia]. apply (IH 0 []); [| reflexivity]. intros b l a X. apply (H (run l0 ++ Shift :: b) l a). rewrite <- app_assoc. cbn [app]. do 2 f_equal. exact X.
    + assert (B : peak es (S n) <= m); [| lia]. apply (IH (S n) (l0 ++ [(s, r)])); [| rewrite app_length; cbn [List.length]; lia].
      unfold run. rewrite map_app. cbn [map fst snd]. rewrite <- app_assoc. exact H.
Qed.
Lemma peak_rows m es n : peak es n <= m -> rows_of_at_most m es.
Proof.
  intros H b l a E. subst es. rewrite peak_app in H. rewrite peak_app in H.
  pose proof (peak_final (run l) (final b n)) as F. rewrite run_final in F. lia.
Qed.
Lemma records_since es : forall l l', records es l = Ok l' ->
  (exists l'', es = run l'' /\ l' = l ++ l'') \/ (exists before, es = before ++ Shift :: run l').
Proof.
  induction es as [|e es IH]; intros l l'; cbn [records]; intro H.
  - left. exists []. injection H as <-. rewrite app_nil_r. auto.
  - destruct e as [|s r]; cbn [record] in H.
    + cbn [obind] in H. destruct (IH _ _ H) as [(l2 & -> & E)|(b & ->)].
      * right. exists []. cbn [app] in *. rewrite E. reflexivity.
      * right. exists (Shift :: b). reflexivity.
    + destruct (Nat.ltb _ _); cbn [obind] in H; [| discriminate H]. destruct (IH _ _ H) as [(l2 & -> & E)|(b & ->)].
      * left. exists ((s, r) :: l2). split; [reflexivity |]. rewrite E, <- app_assoc. reflexivity.
      * right. exists (Reduce s r :: b). reflexivity.
Qed.
Lemma run_inj a b : run a = run b -> a = b.
Proof. revert b. induction a as [|[x y] a IH]; intros [|[x' y'] b]; cbn; intro H; try discriminate; [reflexivity |]. injection H as -> -> H. f_equal. apply IH. exact H. Qed.
Lemma no_shift l : ~ In Shift (run l).
Proof. unfold run. intro H. apply in_map_iff in H. destruct H as (x & E & _). discriminate E. Qed.
Lemma last_shift b1 : forall b2 l1 l2, b1 ++ Shift :: run l1 = b2 ++ Shift :: run l2 -> l1 = l2.
Proof.
  induction b1 as [|x b1 IH]; intros [|y b2] l1 l2; cbn [app]; intro H.
  - injection H as H. apply run_inj. exact H.
  - injection H as _ H. exfalso. apply (no_shift l1). rewrite H. apply in_or_app. right. left. reflexivity.
  - injection H as _ H. exfalso. apply (no_shift l2). rewrite <- H. apply in_or_app. right. left. reflexivity.
  - injection H as _ H. exact (IH _ _ _ H).
Qed.
Lemma since_unique es l1 l2 : since_last_word es l1 -> since_last_word es l2 -> l1 = l2.
Proof.
  intros [->|(b1 & ->)] [E|(b2 & E)].
  - apply run_inj. exact E.
  - exfalso. apply (no_shift l1). rewrite E. apply in_or_app. right. left. reflexivity.
  - exfalso. apply (no_shift l2). rewrite <- E. apply in_or_app. right. left. reflexivity.
  - exact (last_shift _ _ _ _ E).
Qed.
Lemma recorded es l : records es [] = Ok l <-> rows_of_at_most max_reductions es /\ since_last_word es l.
Proof.
  split.
  - intro H. split.
    + destruct (Nat.leb_spec (peak es 0) max_reductions) as [P|P]; [exact (peak_rows _ _ _ P) |].
      rewrite (records_bad es []) in H; [discriminate H | cbn [List.length]; unfold max_reductions; lia | exact P].
    + destruct (records_since _ _ _ H) as [(l2 & -> & ->)|B]; [left; reflexivity | right; exact B].
  - intros [R S]. destruct (records_ok es []) as (l' & E & _); [exact (rows_peak _ es 0 [] R eq_refl) |].
    rewrite E. f_equal. apply (since_unique es); [| exact S].
    destruct (records_since _ _ _ E) as [(l2 & -> & ->)|B]; [left; reflexivity | right; exact B].
Qed.
Lemma not_recorded es : ~ rows_of_at_most max_reductions es -> records es [] = UB UB_bounds.
Proof.
  intro H. apply records_bad; [cbn [List.length]; unfold max_reductions; lia |].
  destruct (Nat.leb_spec (peak es 0) max_reductions) as [P|P]; [| exact P]. exfalso. apply H. exact (peak_rows _ _ _ P).
Qed.

(* ---- a tree is safe ---- *)
Definition rank (ty : string) : nat := if String.eqb ty "TEXT_1" then 1 else if String.eqb ty "TEXT" then 2 else if String.eqb ty "CHUNKS" then 2 else 0.
Definition settles (ty : string) : bool := Nat.eqb (rank ty) 0 || String.eqb ty "CHUNKS".
Fixpoint loose (ss : list sym) : nat := match ss with [] => 0 | SN k :: ss => rank k + loose ss | _ :: ss => loose ss end.
Fixpoint ff (ty : string) (ss : list sym) : bool :=
  match ss with
  | [] => false
  | SE _ :: ss => ff ty ss
  | ST _ :: ss => Nat.leb (loose ss) 2
  | SN k :: ss => settles k && Nat.leb (rank k) (rank ty) && Nat.leb (loose ss) 2
  end.
Definition alt_ok (ty : string) (ss : list sym) : bool :=
  Nat.leb (loose ss + (if String.eqb ty "CHUNKS" then 0 else 1)) (rank ty) || ff ty ss.
Lemma rank_le ty : rank ty <= 2.
Proof. unfold rank. repeat destruct (String.eqb _ _); lia. Qed.
Lemma all_ok : forallb (fun r => forallb (alt_ok (fst r)) (snd r)) grammar = true.
Proof. vm_compute. reflexivity. Qed.
Lemma ok_of ty ss : In ss (alternatives ty) -> alt_ok ty ss = true.
Proof.
  unfold alternatives. intro I. apply in_flat_map in I. destruct I as ([k l] & F & I). cbn [fst snd] in I. destruct (String.eqb_spec k ty) as [->|]; [| destruct I].
  pose proof all_ok as A. rewrite forallb_forall in A. specialize (A _ F). cbn [fst snd] in A. rewrite forallb_forall in A. exact (A _ I).
Qed.

Scheme builds_mut := Induction for builds Sort Prop with builds_all_mut := Induction for builds_all Sort Prop.
Combined Scheme builds_both from builds_mut, builds_all_mut.

Definition bounded (t : tree) (e : list event) : Prop :=
  match t with
  | Leaf _ => True
  | NT ty _ => forall n, peak e n <= Nat.max (n + rank ty) (3 * height t) /\ (settles ty = true -> final e n <= 3 * height t)
  end.
Definition bounded_all (ss : list sym) (cs : list tree) (es : list event) : Prop :=
  let m := 3 * list_max (map height cs) in
  forall n, peak es n <= Nat.max n m + loose ss /\
    forall ty, ff ty ss = true -> peak es n <= Nat.max (n + rank ty) (m + 2) /\ final es n <= m + 2.

Lemma list_max_cons x l : list_max (x :: l) = Nat.max x (list_max l).
Proof. reflexivity. Qed.
Lemma bounds : (forall t e, builds t e -> bounded t e) /\ (forall ss cs es, builds_all ss cs es -> bounded_all ss cs es).
Proof.
  apply builds_both.
  - intros ty ch ss es k s r I B H K C n. cbn [height]. specialize (H n). destruct H as [H1 H2].
    pose proof (ok_of ty ss I) as O. unfold alt_ok in O.
    rewrite !peak_app, !final_app, shifts_peak, shifts_final. cbn [peak final step].
    pose proof (rank_le ty) as RL. pose proof (peak_final es n) as PF. set (m := list_max (map height ch)) in *.
    destruct (String.eqb_spec ty "CHUNKS") as [->|N].
    + assert (K0 : k <> 0) by (apply C; reflexivity). destruct k as [|k]; [contradiction |].
      apply orb_true_iff in O. destruct O as [O|O].
      * apply Nat.leb_le in O. change (rank "CHUNKS") with 2 in *. lia.
      * destruct (H2 _ O) as [H3 H4]. change (rank "CHUNKS") with 2 in *. lia.
    + assert (F : final es n + 1 <= Nat.max (n + rank ty) (3 * S m) /\ (settles ty = true -> final es n + 1 <= 3 * S m) /\ peak es n <= Nat.max (n + rank ty) (3 * S m)).
      { apply orb_true_iff in O. destruct O as [O|O].
        - apply Nat.leb_le in O. split; [lia |]. split; [| lia]. intro ST. unfold settles in ST. apply orb_true_iff in ST. destruct ST as [ST|ST]; [apply Nat.eqb_eq in ST; lia | apply String.eqb_eq in ST; contradiction].
        - destruct (H2 _ O) as [H3 H4]. split; [lia |]. split; lia. }
      destruct F as (F1 & F2 & F3). destruct k as [|k]; split; try lia; intro ST; specialize (F2 ST); lia.
  - intros n. cbn [peak loose]. split; [lia | intros ty H; discriminate H].
  - intros ty ch ss cs e es k B HB BA HA n. unfold bounded in HB. cbn [loose map]. rewrite list_max_cons. set (m := list_max (map height cs)) in *. set (h := height (NT ty ch)) in *.
    rewrite !peak_app, !final_app, shifts_peak, shifts_final. set (n0 := match k with 0 => n | S _ => 0 end).
    assert (N0 : n0 <= n) by (unfold n0; destruct k; lia).
    destruct (HB n0) as [P1 P2]. pose proof (peak_final e n0) as PF. destruct (HA (final e n0)) as [Q1 Q2]. fold m in Q1, Q2. split; [lia |].
    intros ty' F. cbn [ff] in F. apply andb_true_iff in F. destruct F as [F F2]. apply andb_true_iff in F. destruct F as [F F1]. apply Nat.leb_le in F1, F2. specialize (P2 F).
    pose proof (peak_final es (final e n0)). lia.
  - intros t x ss cs es k BA HA n. cbn [loose map height]. rewrite list_max_cons. set (m := list_max (map height cs)) in *.
    rewrite !peak_app, !final_app, shifts_peak, shifts_final. destruct (HA 0) as [Q1 Q2]. fold m in Q1, Q2. split; [lia |].
    intros ty F. cbn [ff] in F. apply Nat.leb_le in F. pose proof (peak_final es 0). lia.
  - intros t ss cs es BA HA n. cbn [loose ff]. exact (HA n).
  - intros t x ss cs es k BA HA n. cbn [loose ff map height]. rewrite list_max_cons. set (m := list_max (map height cs)) in *.
    rewrite !peak_app, !final_app, shifts_peak, shifts_final. set (n0 := match k with 0 => n | S _ => 0 end).
    assert (N0 : n0 <= n) by (unfold n0; destruct k; lia).
    destruct (HA n0) as [Q1 Q2]. fold m in Q1, Q2. split; [lia |]. intros ty F. destruct (Q2 _ F). lia.
Qed.
Lemma safe_tree t es : parses t es -> (exists ch, t = NT "CHUNKS" ch) -> 3 * height t + 1 <= max_reductions -> exists l, records es [] = Ok l.
Proof.
  intros [e s r B] (ch & ->) H. pose proof (proj1 bounds _ _ B 0) as P. cbn beta iota in P. destruct P as [P1 P2]. specialize (P2 eq_refl).
  destruct (records_ok (e ++ [Reduce s r]) []) as (l & E & _); [| exists l; exact E].
  cbn [List.length]. rewrite peak_app. cbn [peak step]. change (rank "CHUNKS") with 2 in P1. unfold max_reductions in *. lia.
Qed.

(* ---- a tree is not ---- *)
Lemma builds_all_last ss cs es k ch : builds_all ss (cs ++ [NT k ch]) es -> exists a e, es = a ++ e /\ builds (NT k ch) e.
Proof.
  intro B. remember (cs ++ [NT k ch]) as l eqn:E. revert cs E. induction B as [|ty ch' ss cs' e es k' B' B IH|t x ss cs' es k' B IH|t ss cs' es B IH|t x ss cs' es k' B IH]; intros cs E.
  - destruct cs; discriminate E.
  - destruct cs as [|c cs].
    + cbn [app] in E. injection E as -> -> ->. exists (repeat Shift k'), e. split; [| exact B'].
      assert (N : es = []); [| rewrite N, app_nil_r; reflexivity].
      clear -B. remember (@nil tree) as l eqn:E in B. induction B as [|ty ch'' ss cs' e' es k'' B'' B IH|t x ss cs' es k'' B IH|t ss cs' es B IH|t x ss cs' es k'' B IH]; try discriminate E; [reflexivity | exact (IH E)].
    + cbn [app] in E. injection E as <- E. destruct (IH cs E) as (a & e' & -> & B''). exists (repeat Shift k' ++ e ++ a), e'. split; [rewrite <- !app_assoc; reflexivity | exact B''].
  - destruct cs as [|c cs]; [discriminate E |]. cbn [app] in E. injection E as _ E. destruct (IH cs E) as (a & e' & -> & B''). exists (repeat Shift (S k') ++ a), e'. split; [rewrite <- !app_assoc; reflexivity | exact B''].
  - exact (IH cs E).
  - destruct cs as [|c cs]; [discriminate E |]. cbn [app] in E. injection E as _ E. destruct (IH cs E) as (a & e' & -> & B''). exists (repeat Shift k' ++ a), e'. split; [rewrite <- !app_assoc; reflexivity | exact B''].
Qed.
Lemma ends_final t n : end_together t n -> forall e m, builds t e -> n <= final e m.
Proof.
  induction 1 as [ty ch|ty cs k ch n N E IH]; intros e m B.
  - inversion B as [ty' ch' ss es k' s r I BA K C]; subst. rewrite !final_app. cbn [final step]. lia.
  - inversion B as [ty' ch' ss es k' s r I BA K C]; subst. destruct K as [->|K]; [| contradiction].
    destruct (builds_all_last _ _ _ _ _ BA) as (a & e & -> & B'). cbn [repeat app]. rewrite !final_app. cbn [final step].
    specialize (IH e (final a m) B'). lia.
Qed.
