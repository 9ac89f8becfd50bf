(* Proofs for C87. *)
From Coq Require Import List Arith Bool Lia.
From Verif Require Import DfaModel FlexModel PrecModel PrecSpec.
Import ListNotations.
Local Open Scope nat_scope.
Local Open Scope list_scope.

Definition state := (list item * list token)%type.
Inductive steps : state -> state -> Prop :=
| st_refl : forall x, steps x x
| st_one : forall s ts s' ts' y, step s ts = Next s' ts' -> steps (s', ts') y -> steps (s, ts) y.
Lemma steps_trans : forall x y z, steps x y -> steps y z -> steps x z.
Proof. induction 1; intro; [assumption|]. eapply st_one; eauto. Qed.
Lemma one : forall s ts s' ts', step s ts = Next s' ts' -> steps (s, ts) (s', ts').
Proof. intros. eapply st_one; [eassumption|apply st_refl]. Qed.

(* the precedence of the rule that waits for an expr on top of s *)
Definition pend (s : list item) : option nat :=
  match s with
  | K T_NOT :: _ => Some 5
  | K T_AND :: E _ :: _ => Some 4
  | K T_XOR :: E _ :: _ => Some 3
  | K T_PIPE :: E _ :: _ => Some 2
  | K T_COLON :: E _ :: K T_QUERY :: E _ :: _ => Some 1
  | _ => None
  end.
Definition is_E (i : item) : bool := match i with E _ => true | K _ => false end.
Definition open_top (s : list item) : Prop := match s with E _ :: _ => False | _ => True end.
Definition fits (n : nat) (s : list item) : Prop :=
  open_top s /\ match pend s with None => True | Some p => p < n \/ (p = 1 /\ n = 1) \/ 5 <= n end.
Definition la (ts : list token) : option nat := match ts with [] => None | t :: _ => prec t end.
Definition follows (n : nat) (ts : list token) : Prop := forall p, la ts = Some p -> p <= n /\ ~ (n = 1 /\ p = 1).

Lemma complete_pend : forall e s, match complete (E e :: s) with Some (q, _) => pend s = Some q | None => pend s = None end.
Proof.
  intros e s. destruct s as [|[e1|t] s]; try reflexivity. destruct t; try reflexivity;
  destruct s as [|[e2|t2] s]; try reflexivity.
  destruct s as [|[e3|t3] s]; try reflexivity. destruct t3; try reflexivity. destruct s as [|[e4|t4] s]; reflexivity.
Qed.
Lemma prec_1234 : forall t p, prec t = Some p -> 1 <= p <= 4.
Proof. destruct t; cbn; intros p H; try discriminate; injection H as <-; lia. Qed.
(* an operator that binds tighter than what waits is shifted *)
Lemma shift_op : forall t p e s ts, prec t = Some p ->
  match pend s with None => True | Some q => q < p \/ (q = 1 /\ p = 1) end ->
  step (E e :: s) (t :: ts) = Next (K t :: E e :: s) ts.
Proof.
  intros t p e s ts P H. cbn [step]. rewrite P. pose proof (complete_pend e s) as C.
  destruct (complete (E e :: s)) as [[q s']|]; [|reflexivity]. rewrite C in H.
  destruct H as [H|[-> ->]]; [|reflexivity]. apply Nat.ltb_lt in H. now rewrite H.
Qed.
(* a complete rule is used when the next token does not bind tighter *)
Lemma reduce : forall e s q s' ts, complete (E e :: s) = Some (q, s') -> follows q ts ->
  step (E e :: s) ts = Next s' ts.
Proof.
  intros e s q s' ts C F. cbn [step]. destruct ts as [|t ts]; [unfold finish; now rewrite C|].
  destruct (prec t) as [p|] eqn:P.
  - rewrite C. destruct (F p P) as [F1 F2].
    replace (q <? p) with false by (symmetry; apply Nat.ltb_ge; exact F1).
    destruct (Nat.eqb_spec q p), (Nat.eqb_spec p 1); cbn [orb andb]; try reflexivity. subst. elim F2. split; reflexivity.
  - assert (Q : finish (E e :: s) (t :: ts) = Next s' (t :: ts)) by (unfold finish; now rewrite C).
    pose proof (complete_pend e s) as CP. rewrite C in CP.
    destruct t; try exact Q; destruct s as [|[e1|t1] s]; try exact Q; destruct t1; try exact Q; discriminate CP.
Qed.
Lemma follows_none : forall n ts, la ts = None -> follows n ts.
Proof. intros n ts H p Q. congruence. Qed.
Lemma follows_le : forall n m ts, follows n ts -> n <= m -> 2 <= m -> follows m ts.
Proof. intros n m ts F L M p Q. destruct (F p Q). lia. Qed.
Lemma follows_big : forall m ts, 4 <= m -> follows m ts.
Proof. intros m ts M p Q. destruct ts as [|t ts]; [discriminate|]. apply prec_1234 in Q. lia. Qed.

Lemma reads : forall n e ts, written n e ts -> 1 <= n -> forall s rest, fits n s -> follows n rest ->
  steps (s, ts ++ rest) (E e :: s, rest).
Proof.
  induction 1 as [n x L|n L|n e ts L W IH|n e ts L W IH|n a b ta tb L WA IA WB IB|n a b ta tb L WA IA WB IB|n a b ta tb L WA IA WB IB|n a b c ta tb tc L WA IA WB IB WC IC];
    intros N s rest [O F] R.
  - apply one. destruct s as [|[e1|t1] s]; [reflexivity|elim O|reflexivity].
  - apply one. destruct s as [|[e1|t1] s]; [reflexivity|elim O|reflexivity].
  - rewrite <- !app_assoc. cbn [app].
    eapply st_one with (s' := K T_LPAREN :: s) (ts' := ts ++ T_RPAREN :: rest);
      [destruct s as [|[e1|t1] s]; [reflexivity|elim O|reflexivity]|].
    eapply steps_trans; [apply IH; [lia|split; exact I|now apply follows_none]|]. apply one. reflexivity.
  - cbn [app]. eapply st_one with (s' := K T_NOT :: s) (ts' := ts ++ rest);
      [destruct s as [|[e1|t1] s]; [reflexivity|elim O|reflexivity]|].
    eapply steps_trans; [apply IH; [lia|split; [exact I|right; right; lia]|apply follows_big; lia]|].
    apply one. apply (reduce e (K T_NOT :: s) 5); [reflexivity|apply follows_big; lia].
  - rewrite <- !app_assoc. cbn [app].
    eapply steps_trans; [apply IA; [lia|split; [exact O|destruct (pend s); [lia|exact I]]|apply follows_big; lia]|].
    eapply st_one; [apply (shift_op T_AND 4 a s); [reflexivity|destruct (pend s); [lia|exact I]]|].
    eapply steps_trans; [apply IB; [lia|split; [exact I|cbn; lia]|apply follows_big; lia]|].
    apply one. apply (reduce b (K T_AND :: E a :: s) 4); [reflexivity|apply follows_big; lia].
  - rewrite <- !app_assoc. cbn [app].
    assert (R3 : follows 3 rest) by (apply (follows_le n); [exact R|lia|lia]).
    eapply steps_trans; [apply IA; [lia|split; [exact O|destruct (pend s); [lia|exact I]]|intros p Q; injection Q as <-; lia]|].
    eapply st_one; [apply (shift_op T_XOR 3 a s); [reflexivity|destruct (pend s); [lia|exact I]]|].
    eapply steps_trans; [apply IB; [lia|split; [exact I|cbn; lia]|apply follows_big; lia]|].
    apply one. apply (reduce b (K T_XOR :: E a :: s) 3); [reflexivity|exact R3].
  - rewrite <- !app_assoc. cbn [app].
    assert (R2 : follows 2 rest) by (apply (follows_le n); [exact R|lia|lia]).
    eapply steps_trans; [apply IA; [lia|split; [exact O|destruct (pend s); [lia|exact I]]|intros p Q; injection Q as <-; lia]|].
    eapply st_one; [apply (shift_op T_PIPE 2 a s); [reflexivity|destruct (pend s); [lia|exact I]]|].
    eapply steps_trans; [apply IB; [lia|split; [exact I|cbn; lia]|apply (follows_le 2); [exact R2|lia|lia]]|].
    apply one. apply (reduce b (K T_PIPE :: E a :: s) 2); [reflexivity|exact R2].
  - assert (n = 1) by lia. subst n. rewrite <- !app_assoc. cbn [app].
    assert (PS : pend s = None \/ pend s = Some 1 \/ pend s = Some 0) by (destruct (pend s) as [p|]; [|now left]; destruct p as [|[|p]]; auto; lia).
    assert (P0 : pend s <> Some 0).
    { destruct s as [|[e1|t1] s]; try discriminate; destruct t1; try discriminate;
      destruct s as [|[e2|t2] s]; try discriminate; destruct s as [|[e3|t3] s]; try discriminate; destruct t3; try discriminate;
      destruct s as [|[e4|t4] s]; discriminate. }
    eapply steps_trans; [apply IA; [lia|split; [exact O|destruct (pend s); [lia|exact I]]|intros p Q; injection Q as <-; lia]|].
    eapply st_one; [apply (shift_op T_QUERY 1 a s); [reflexivity|destruct PS as [->|[->|Q]]; [exact I|right; split; reflexivity|congruence]]|].
    eapply steps_trans; [apply IB; [lia|split; exact I|now apply follows_none]|].
    eapply st_one; [reflexivity|].
    eapply steps_trans; [apply IC; [lia|split; [exact I|cbn; lia]|exact R]|].
    apply one. apply (reduce c (K T_COLON :: E b :: K T_QUERY :: E a :: s) 1); [reflexivity|exact R].
Qed.

(* ------------------------------------------------------------------ termination *)
Definition size (s : list item) (ts : list token) : nat := 2 * length ts + length s.
Lemma complete_short : forall s q s', complete s = Some (q, s') -> length s' < length s.
Proof.
  intros s q s' H. destruct s as [|[e|t] s]; [discriminate| |discriminate].
  destruct s as [|[e1|t] s]; try discriminate. destruct t; try discriminate;
  try (injection H as <- <-; cbn; lia);
  destruct s as [|[e2|t2] s]; try discriminate; try (injection H as <- <-; cbn; lia).
  destruct s as [|[e3|t3] s]; try discriminate. destruct t3; try discriminate. destruct s as [|[e4|t4] s]; try discriminate.
  injection H as <- <-. cbn. lia.
Qed.
Lemma finish_short : forall s ts s' ts', finish s ts = Next s' ts' -> size s' ts' < size s ts.
Proof.
  unfold finish, size. intros s ts s' ts' H. destruct (complete s) as [[q s0]|] eqn:C.
  - injection H as <- <-. apply complete_short in C. lia.
  - destruct s as [|[e|t] s]; try discriminate. destruct s; discriminate.
Qed.
Lemma step_short : forall s ts s' ts', step s ts = Next s' ts' -> size s' ts' < size s ts.
Proof.
  intros s ts s' ts' H. destruct s as [|[e|t0] s].
  - cbn [step] in H. destruct ts as [|t ts]; [discriminate|]. destruct t; try discriminate; injection H as <- <-; unfold size; cbn [length]; lia.
  - cbn [step] in H. destruct ts as [|t ts]; [now apply finish_short|]. destruct (prec t) as [p|].
    + destruct (complete (E e :: s)) as [[q s0]|] eqn:C.
      * destruct ((q <? p) || ((q =? p) && (p =? 1))); injection H as <- <-; unfold size; cbn [length]; [lia|].
        apply complete_short in C. cbn [length] in C. lia.
      * injection H as <- <-; unfold size; cbn [length]; lia.
    + assert (X : forall r, r = Next s' ts' -> r = finish (E e :: s) (t :: ts) -> size s' ts' < size (E e :: s) (t :: ts))
        by (intros r A B; rewrite A in B; now apply finish_short).
      destruct t; try (now apply (X _ H)); destruct s as [|[e1|t1] s]; try (now apply (X _ H)); destruct t1; try (now apply (X _ H));
        injection H as <- <-; unfold size; cbn [length]; lia.
  - cbn [step] in H. destruct ts as [|t ts]; [discriminate|]. destruct t; try discriminate; injection H as <- <-; unfold size; cbn [length]; lia.
Qed.
Lemma run_steps : forall x y, steps x y -> forall f, size (fst x) (snd x) < f -> exists g, size (fst y) (snd y) < g /\ run f (fst x) (snd x) = run g (fst y) (snd y).
Proof.
  induction 1 as [x|s ts s' ts' y H R IH]; intros f L; [exists f; auto|]. cbn [fst snd] in *.
  destruct f as [|f]; [lia|]. pose proof (step_short _ _ _ _ H). destruct (IH f) as [g [G E0]]; [lia|].
  exists g. split; [exact G|]. cbn [run]. rewrite H. exact E0.
Qed.
Lemma run_ends : forall f s ts, size s ts < f -> forall s' ts', run f s ts <> Next s' ts'.
Proof.
  induction f as [|f IH]; intros s ts L s' ts'; [lia|]. cbn [run]. destruct (step s ts) as [s1 ts1|e r|] eqn:E0; try discriminate.
  apply IH. apply step_short in E0. lia.
Qed.
Lemma parse_ends : forall ts s' ts', parse ts <> Next s' ts'.
Proof. intros ts. apply run_ends. unfold size. cbn [length]. lia. Qed.
Lemma ends_follows : forall rest, ends_here rest -> la rest = None.
Proof. intros [|t rest] H; [reflexivity|]. cbn in *. destruct t; try reflexivity; elim H; tauto. Qed.
Lemma parse_written : forall e ts rest, written 1 e ts -> ends_here rest -> parse (ts ++ rest) = Accept e rest.
Proof.
  intros e ts rest W R. apply ends_follows in R.
  pose proof (reads 1 e ts W (le_n 1) [] rest (conj I I) (follows_none _ _ R)) as S.
  destruct (run_steps _ _ S (2 * length (ts ++ rest) + 1)) as [g [G E0]]; [unfold size; cbn [fst snd length]; lia|].
  unfold parse. cbn [fst snd] in *. rewrite E0. destruct g as [|g]; [lia|]. cbn [run].
  assert (Q : step [E e] rest = Accept e rest).
  { destruct rest as [|t rest]; [reflexivity|]. cbn [la] in R. cbn [step]. rewrite R. destruct t; reflexivity. }
  now rewrite Q.
Qed.
