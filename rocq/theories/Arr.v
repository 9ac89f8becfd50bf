(* Read-only arrays and bounded loops used by the models. *)
From Coq Require Import List NArith PArith Lia FMapPositive.
Import ListNotations.

(* A C array, as a finite map from index to element.  Not a repository
   function: the models use it where the C code indexes an array. *)
Definition arr (A : Type) : Type := PositiveMap.t A.

(* array access a[i]; [None] is an access outside the array *)
Definition aget {A} (a : arr A) (i : N) : option A :=
  PositiveMap.find (N.succ_pos i) a.

(* array store a[i] = x *)
Definition aset {A} (a : arr A) (i : N) (x : A) : arr A :=
  PositiveMap.add (N.succ_pos i) x a.

(* the array holding the elements of [l] from index [i] on *)
Fixpoint afrom {A} (i : N) (l : list A) (a : arr A) : arr A :=
  match l with
  | [] => a
  | x :: l => afrom (N.succ i) l (aset a i x)
  end.

Definition aof {A} (l : list A) : arr A := afrom 0 l (PositiveMap.empty A).

(* a while loop with at most [p] iterations: the body answers [inl] to go on
   with a new state and [inr] to leave.  [inl] as the final answer means the
   bound was reached. *)
Fixpoint loop {S R : Type} (step : S -> S + R) (p : positive) (s : S) : S + R :=
  match p with
  | xH => step s
  | xO p =>
      match loop step p s with
      | inl s => loop step p s
      | inr r => inr r
      end
  | xI p =>
      match step s with
      | inl s =>
          match loop step p s with
          | inl s => loop step p s
          | inr r => inr r
          end
      | inr r => inr r
      end
  end.

(* ---- lemmas ---------------------------------------------------------- *)

Lemma aget_empty A i : aget (PositiveMap.empty A) i = None.
Proof. unfold aget. apply PositiveMap.gempty. Qed.

Lemma succ_pos_inj a b : N.succ_pos a = N.succ_pos b -> a = b.
Proof. destruct a, b; simpl; lia. Qed.

Lemma aget_set A (a : arr A) i x j :
  aget (aset a i x) j = if N.eqb j i then Some x else aget a j.
Proof.
  unfold aget, aset. destruct (N.eqb_spec j i) as [->|H].
  - apply PositiveMap.gss.
  - apply PositiveMap.gso. intro E. apply succ_pos_inj in E. auto.
Qed.

Lemma aget_set_same A (a : arr A) i x : aget (aset a i x) i = Some x.
Proof. rewrite aget_set, N.eqb_refl. reflexivity. Qed.

Lemma aget_set_other A (a : arr A) i x j :
  j <> i -> aget (aset a i x) j = aget a j.
Proof. intro H. rewrite aget_set. apply N.eqb_neq in H. rewrite H. reflexivity. Qed.

Lemma aget_from A (l : list A) : forall i a j,
  aget (afrom i l a) j =
  if (j <? i)%N then aget a j
  else match nth_error l (N.to_nat (j - i)) with
       | Some x => Some x
       | None => aget a j
       end.
Proof.
  induction l as [|x l IH]; intros i a j; cbn [afrom].
  - destruct (j <? i)%N; [reflexivity|].
    destruct (N.to_nat (j - i)); reflexivity.
  - rewrite IH, aget_set.
    destruct (N.ltb_spec j i) as [H|H].
    + replace (j <? N.succ i)%N with true by (symmetry; apply N.ltb_lt; lia).
      replace (j =? i)%N with false by (symmetry; apply N.eqb_neq; lia). reflexivity.
    + destruct (N.eqb_spec j i) as [->|Hn].
      * replace (i <? N.succ i)%N with true by (symmetry; apply N.ltb_lt; lia).
        replace (N.to_nat (i - i)) with 0%nat by lia. reflexivity.
      * replace (j <? N.succ i)%N with false by (symmetry; apply N.ltb_ge; lia).
        replace (N.to_nat (j - i)) with (S (N.to_nat (j - N.succ i))) by lia.
        reflexivity.
Qed.

Lemma aget_of A (l : list A) i : aget (aof l) i = nth_error l (N.to_nat i).
Proof.
  unfold aof. rewrite aget_from, aget_empty.
  replace (i <? 0)%N with false by (symmetry; apply N.ltb_ge; lia).
  rewrite N.sub_0_r. destruct (nth_error l (N.to_nat i)); reflexivity.
Qed.

(* An invariant of the body is an invariant of the loop. *)
Lemma loop_inv {S R} (step : S -> S + R) (I : S -> Prop) (Q : R -> Prop) :
  (forall s s', I s -> step s = inl s' -> I s') ->
  (forall s r, I s -> step s = inr r -> Q r) ->
  forall p s, I s ->
    match loop step p s with inl s' => I s' | inr r => Q r end.
Proof.
  intros Hs Hr. induction p as [p IH|p IH|]; intros s Is; cbn [loop].
  - destruct (step s) as [s1|r] eqn:E; [|eauto].
    pose proof (IH s1 (Hs _ _ Is E)) as K.
    destruct (loop step p s1) as [s2|r]; [apply IH; exact K|exact K].
  - pose proof (IH s Is) as K.
    destruct (loop step p s) as [s2|r]; [apply IH; exact K|exact K].
  - destruct (step s) as [s1|r] eqn:E; eauto.
Qed.

(* A decreasing measure bounds the number of iterations. *)
Lemma loop_measure_gen {S R} (step : S -> S + R) (I : S -> Prop) (m : S -> N) :
  (forall s s', I s -> step s = inl s' -> I s' /\ (m s' < m s)%N) ->
  forall p s s', I s -> loop step p s = inl s' -> I s' /\ (m s' + Npos p <= m s)%N.
Proof.
  intros Hs. induction p as [p IH|p IH|]; intros s s' Is E; cbn [loop] in E.
  - destruct (step s) as [s1|r] eqn:E1; [|discriminate].
    destruct (Hs _ _ Is E1) as [I1 L1].
    destruct (loop step p s1) as [s2|r] eqn:E2; [|discriminate].
    destruct (IH _ _ I1 E2) as [I2 L2]. destruct (IH _ _ I2 E) as [I3 L3].
    split; [exact I3|lia].
  - destruct (loop step p s) as [s2|r] eqn:E2; [|discriminate].
    destruct (IH _ _ Is E2) as [I2 L2]. destruct (IH _ _ I2 E) as [I3 L3].
    split; [exact I3|lia].
  - destruct (Hs _ _ Is E) as [I1 L1]. split; [exact I1|lia].
Qed.

Lemma loop_measure {S R} (step : S -> S + R) (I : S -> Prop) (m : S -> N) p s :
  (forall s s', I s -> step s = inl s' -> I s' /\ (m s' < m s)%N) ->
  I s -> (m s < Npos p)%N -> exists r, loop step p s = inr r.
Proof.
  intros Hs Is L. destruct (loop step p s) as [s'|r] eqn:E; [|eauto].
  destruct (loop_measure_gen step I m Hs p s s' Is E) as [_ L2]. lia.
Qed.
