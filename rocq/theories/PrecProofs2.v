(* Proofs for C87: what is accepted is a written expression. *)
From Coq Require Import List Arith Bool Lia.
From Verif Require Import DfaModel FlexModel PrecModel PrecSpec PrecProofs.
Import ListNotations.
Local Open Scope nat_scope.
Local Open Scope list_scope.

Lemma written_le : forall n e ts, written n e ts -> forall m, m <= n -> written m e ts.
Proof.
  intros n e ts W m L. inversion W; subst; try (econstructor; solve [eassumption|lia]).
Qed.
Definition below (p : nat) (s : list item) : Prop := match pend s with None => True | Some q => q < p \/ (q = 1 /\ p = 1) end.
Definition under (m : nat) (s : list item) : Prop :=
  match pend s with None => True | Some q => q < m \/ (q = 1 /\ m = 1) \/ (q = 5 /\ m = 5) end.
(* stacks that wait for an expr, and the tokens they stand for *)
Inductive wf : list item -> list token -> Prop :=
| wf_nil : wf [] []
| wf_paren : forall s ts, wf s ts -> wf (K T_LPAREN :: s) (ts ++ [T_LPAREN])
| wf_not : forall s ts, wf s ts -> wf (K T_NOT :: s) (ts ++ [T_NOT])
| wf_and : forall s ts a ta, wf s ts -> written 4 a ta -> below 4 s -> wf (K T_AND :: E a :: s) (ts ++ ta ++ [T_AND])
| wf_xor : forall s ts a ta, wf s ts -> written 3 a ta -> below 3 s -> wf (K T_XOR :: E a :: s) (ts ++ ta ++ [T_XOR])
| wf_or : forall s ts a ta, wf s ts -> written 2 a ta -> below 2 s -> wf (K T_PIPE :: E a :: s) (ts ++ ta ++ [T_PIPE])
| wf_query : forall s ts a ta, wf s ts -> written 2 a ta -> below 1 s -> wf (K T_QUERY :: E a :: s) (ts ++ ta ++ [T_QUERY])
| wf_colon : forall s ts a b tb, wf (K T_QUERY :: E a :: s) ts -> written 1 b tb ->
    wf (K T_COLON :: E b :: K T_QUERY :: E a :: s) (ts ++ tb ++ [T_COLON]).
Inductive inv (all : list token) : list item -> list token -> Prop :=
| inv_open : forall s c ts, all = c ++ ts -> wf s c -> inv all s ts
| inv_expr : forall e s c te m ts, all = (c ++ te) ++ ts -> wf s c -> written m e te -> 1 <= m <= 6 -> follows m ts -> under m s ->
    inv all (E e :: s) ts.
Lemma wf_top : forall e s c, wf (E e :: s) c -> False.
Proof. intros e s c H. inversion H. Qed.
Lemma pend_5 : forall s q, pend s = Some q -> 1 <= q <= 5.
Proof.
  intros s q H. destruct s as [|[e1|t1] s]; try discriminate; destruct t1; try discriminate; try (injection H as <-; lia);
  destruct s as [|[e2|t2] s]; try discriminate; try (injection H as <-; lia);
  destruct s as [|[e3|t3] s]; try discriminate; destruct t3; try discriminate;
  destruct s as [|[e4|t4] s]; try discriminate; injection H as <-; lia.
Qed.
Lemma below_under : forall p s, below p s -> under p s.
Proof. unfold below, under. intros p s H. destruct (pend s); [tauto|exact I]. Qed.
Lemma under_5 : forall s, under 5 s.
Proof. intro s. unfold under. destruct (pend s) as [q|] eqn:P; [|exact I]. apply pend_5 in P. lia. Qed.
Lemma under_6 : forall s, under 6 s.
Proof. intro s. unfold under. destruct (pend s) as [q|] eqn:P; [|exact I]. apply pend_5 in P. lia. Qed.
Lemma inv_reduce : forall all e s c te m ts q s', all = (c ++ te) ++ ts -> wf s c -> written m e te -> 1 <= m -> under m s ->
  complete (E e :: s) = Some (q, s') -> follows q ts -> inv all s' ts.
Proof.
  intros all e s c te m ts q s' A W X M U C F.
  inversion W as [|s1 c1 W1|s1 c1 W1|s1 c1 a ta W1 X1 B1|s1 c1 a ta W1 X1 B1|s1 c1 a ta W1 X1 B1|s1 c1 a ta W1 X1 B1|s1 c1 a b tb W1 X1]; subst s c; cbn [complete] in C; try discriminate C.
  - injection C as <- <-. unfold under in U. cbn [pend] in U.
    apply (inv_expr all (E_NOT e) s1 c1 ([T_NOT] ++ te) 5 ts).
    + rewrite A, <- !app_assoc. reflexivity.
    + exact W1.
    + apply w_not; [lia|]. apply (written_le m); [exact X|lia].
    + lia.
    + exact F.
    + apply under_5.
  - injection C as <- <-. unfold under in U. cbn [pend] in U.
    apply (inv_expr all (E_AND a e) s1 c1 (ta ++ [T_AND] ++ te) 4 ts); [rewrite A, <- !app_assoc; reflexivity|exact W1| |lia|exact F|now apply below_under].
    apply w_and; [lia|exact X1|]. apply (written_le m); [exact X|lia].
  - injection C as <- <-. unfold under in U. cbn [pend] in U.
    apply (inv_expr all (E_XOR a e) s1 c1 (ta ++ [T_XOR] ++ te) 3 ts); [rewrite A, <- !app_assoc; reflexivity|exact W1| |lia|exact F|now apply below_under].
    apply w_xor; [lia|exact X1|]. apply (written_le m); [exact X|lia].
  - injection C as <- <-. unfold under in U. cbn [pend] in U.
    apply (inv_expr all (E_OR a e) s1 c1 (ta ++ [T_PIPE] ++ te) 2 ts); [rewrite A, <- !app_assoc; reflexivity|exact W1| |lia|exact F|now apply below_under].
    apply w_or; [lia|exact X1|]. apply (written_le m); [exact X|lia].
  - injection C as <- <-. inversion W1 as [| | | | | |s2 c2 a2 ta W2 X2 B2|]; subst.
    apply (inv_expr _ (E_COND a b e) s1 c2 (ta ++ [T_QUERY] ++ tb ++ [T_COLON] ++ te) 1 ts); [rewrite <- !app_assoc; reflexivity|exact W2| |lia|exact F|now apply below_under].
    apply w_cond; [lia|exact X2|exact X1|]. apply (written_le m); [exact X|lia].
Qed.
Lemma inv_finish : forall all e s c te m ts s' ts', all = (c ++ te) ++ ts -> wf s c -> written m e te -> 1 <= m -> under m s -> la ts = None ->
  finish (E e :: s) ts = Next s' ts' -> inv all s' ts'.
Proof.
  intros all e s c te m ts s' ts' A W X M U L H. unfold finish in H. destruct (complete (E e :: s)) as [[q s0]|] eqn:C.
  - injection H as <- <-. eapply inv_reduce; try eassumption. now apply follows_none.
  - destruct s; discriminate.
Qed.
Lemma inv_step : forall all s ts s' ts', inv all s ts -> step s ts = Next s' ts' -> inv all s' ts'.
Proof.
  intros all s ts s' ts' I H. inversion I as [s0 c ts0 A W|e s0 c te m ts0 A W X M F U]; subst.
  - assert (OP : forall t ts1, ts = t :: ts1 -> match t with T_STRING x => Next (E (E_SYMBOL x) :: s) ts1 | T_STAR => Next (E E_WILD :: s) ts1
      | T_NOT | T_LPAREN => Next (K t :: s) ts1 | _ => Reject end = Next s' ts' -> inv (c ++ ts) s' ts').
    { intros t ts1 -> Q. destruct t; try discriminate Q; injection Q as <- <-.
      - apply (inv_open _ _ (c ++ [T_NOT])); [now rewrite <- app_assoc|now constructor].
      - apply (inv_expr _ E_WILD s c [T_STAR] 6); [now rewrite <- app_assoc|exact W|constructor; lia|lia|apply follows_big; lia|apply under_6].
      - apply (inv_open _ _ (c ++ [T_LPAREN])); [now rewrite <- app_assoc|now constructor].
      - apply (inv_expr _ (E_SYMBOL s0) s c [T_STRING s0] 6); [now rewrite <- app_assoc|exact W|constructor; lia|lia|apply follows_big; lia|apply under_6]. }
    destruct s as [|[e|t0] s]; [|now elim (wf_top _ _ _ W)|]; cbn [step] in H; destruct ts as [|t ts]; try discriminate H;
      apply (OP t ts eq_refl); destruct t; exact H.
  - cbn [step] in H. destruct ts as [|t ts]; [exact (inv_finish _ e s0 c te m [] s' ts' eq_refl W X (proj1 M) U eq_refl H)|].
    destruct (prec t) as [p|] eqn:P.
    + assert (SH : below p s0 -> Next (K t :: E e :: s0) ts = Next s' ts' -> inv ((c ++ te) ++ t :: ts) s' ts').
      { intros B Q. injection Q as <- <-. destruct (F p P) as [F1 F2].
        apply (inv_open _ _ (c ++ te ++ [t])); [rewrite <- !app_assoc; reflexivity|].
        destruct t; try discriminate P; injection P as <-; constructor; try assumption; (apply (written_le m); [exact X|lia]). }
      pose proof (complete_pend e s0) as CP. destruct (complete (E e :: s0)) as [[q s1]|] eqn:C.
      * destruct ((q <? p) || ((q =? p) && (p =? 1))) eqn:D.
        -- apply SH; [|exact H]. unfold below. rewrite CP. apply orb_true_iff in D. destruct D as [D|D]; [left; now apply Nat.ltb_lt|].
           apply andb_true_iff in D. destruct D as [D1 D2]. apply Nat.eqb_eq in D1, D2. lia.
        -- injection H as <- <-. eapply (inv_reduce _ e s0 c te m); try eassumption; [reflexivity|lia|].
           intros p' Q. cbn [la] in Q. rewrite P in Q. injection Q as <-. apply orb_false_iff in D. destruct D as [D1 D2].
           apply Nat.ltb_ge in D1. split; [exact D1|]. intros [-> ->]. discriminate.
      * apply SH; [|exact H]. unfold below. now rewrite CP.
    + assert (FI : finish (E e :: s0) (t :: ts) = Next s' ts' -> inv ((c ++ te) ++ t :: ts) s' ts')
        by (intro Q; exact (inv_finish _ e s0 c te m (t :: ts) s' ts' eq_refl W X (proj1 M) U P Q)).
      destruct t; try (exact (FI H)); destruct s0 as [|[e1|t1] s0]; try (exact (FI H)); destruct t1; try (exact (FI H)).
      * injection H as <- <-. inversion W as [| | | | | |s2 c2 a2 ta W2 X2 B2|]; subst.
        apply (inv_open _ _ ((c2 ++ ta ++ [T_QUERY]) ++ te ++ [T_COLON])); [rewrite <- !app_assoc; reflexivity|].
        constructor; [exact W|]. apply (written_le m); [exact X|lia].
      * injection H as <- <-. inversion W as [|s2 c2 W2| | | | | |]; subst.
        apply (inv_expr _ e s0 c2 ([T_LPAREN] ++ te ++ [T_RPAREN]) 6); [rewrite <- !app_assoc; reflexivity|exact W2| |lia|apply follows_big; lia|apply under_6].
        constructor; [lia|]. apply (written_le m); [exact X|lia].
Qed.
Lemma inv_accept : forall all s ts e rest, inv all s ts -> step s ts = Accept e rest ->
  exists c, all = c ++ rest /\ written 1 e c /\ ends_here rest.
Proof.
  assert (FA : forall s ts e rest, finish s ts = Accept e rest -> s = [E e] /\ ts = rest).
  { intros s ts e rest H. unfold finish in H. destruct (complete s) as [[q s1]|]; [discriminate|].
    destruct s as [|[e0|t] s]; try discriminate. destruct s; [|discriminate]. injection H as <- <-. auto. }
  intros all s ts e rest I H. inversion I as [s0 c ts0 A W|e0 s0 c te m ts0 A W X M F U]; subst.
  - destruct s as [|[e0|t0] s]; [|now elim (wf_top _ _ _ W)|]; cbn [step] in H; destruct ts as [|t ts]; try discriminate H; destruct t; discriminate H.
  - assert (G : finish (E e0 :: s0) ts = Accept e rest -> la ts = None -> exists c0, (c ++ te) ++ ts = c0 ++ rest /\ written 1 e c0 /\ ends_here rest).
    { intros Q L. destruct (FA _ _ _ _ Q) as [Q1 ->]. injection Q1 as -> ->. inversion W; subst. exists te. split; [reflexivity|].
      split; [apply (written_le m); [exact X|lia]|]. destruct rest as [|t rest]; [exact Logic.I|]. cbn in L |- *.
      destruct t; try discriminate L; intuition discriminate. }
    cbn [step] in H. destruct ts as [|t ts]; [now apply G|]. destruct (prec t) as [p|] eqn:P.
    + destruct (complete (E e0 :: s0)) as [[q s1]|]; [|discriminate]. destruct ((q <? p) || ((q =? p) && (p =? 1))); discriminate.
    + destruct t; try (apply G; [exact H|reflexivity]); try discriminate P;
      destruct s0 as [|[e1|t1] s0]; try (apply G; [exact H|reflexivity]); destruct t1; try (apply G; [exact H|reflexivity]); discriminate H.
Qed.
Lemma run_accept : forall f all s ts e rest, inv all s ts -> run f s ts = Accept e rest ->
  exists c, all = c ++ rest /\ written 1 e c /\ ends_here rest.
Proof.
  induction f as [|f IH]; intros all s ts e rest I H; [discriminate|]. cbn [run] in H.
  destruct (step s ts) as [s1 ts1|e1 r1|] eqn:S1; [|injection H as <- <-; eapply inv_accept; eassumption|discriminate].
  eapply IH; [eapply inv_step; eassumption|exact H].
Qed.
Lemma parse_accept : forall ts e rest, parse ts = Accept e rest -> exists c, ts = c ++ rest /\ written 1 e c /\ ends_here rest.
Proof. intros ts e rest H. eapply run_accept; [|exact H]. apply (inv_open _ _ []); [reflexivity|constructor]. Qed.
Lemma parse_only : forall e e' ts, written 1 e ts -> written 1 e' ts -> e = e'.
Proof.
  intros e e' ts W W'. pose proof (parse_written e ts [] W I) as A. pose proof (parse_written e' ts [] W' I) as B. congruence.
Qed.
