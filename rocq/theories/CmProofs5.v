(* The scanner of the word glosser: what its patterns match, and which rule is taken. *)
From Coq Require Import String Ascii List NArith ZArith Bool Arith Lia.
From Verif Require Import Base LayoutModel LujvoSpec CmModel CmSpec CmProofs CmProofs2 CmProofs3.
Import ListNotations.
Open Scope list_scope.

(* ---- patterns ---- *)
Inductive matches : re -> txt -> Prop :=
| m_eps : matches Eps []
| m_chr f c : f c = true -> matches (Chr f) [c]
| m_cat a b x y : matches a x -> matches b y -> matches (Cat a b) (x ++ y)
| m_altl a b x : matches a x -> matches (Alt a b) x
| m_altr a b x : matches b x -> matches (Alt a b) x
| m_star0 a : matches (Star a) []
| m_star a x y : matches a x -> matches (Star a) y -> matches (Star a) (x ++ y).
Lemma null_ok r : nullable r = true <-> matches r [].
Proof.
  split.
  - induction r; cbn [nullable]; intro H; try discriminate H; try (constructor; fail).
    + apply andb_true_iff in H. destruct H. change (@nil ascii) with (@nil ascii ++ []). constructor; auto.
    + apply orb_true_iff in H. destruct H; [apply m_altl | apply m_altr]; auto.
  - intro M. remember [] as x eqn:E. induction M; cbn [nullable]; try reflexivity; try discriminate E.
    + apply app_eq_nil in E. destruct E as [-> ->]. rewrite IHM1, IHM2; reflexivity.
    + rewrite IHM; auto.
    + rewrite IHM by assumption. apply orb_true_r.
Qed.
Lemma star_cons a c y : matches (Star a) (c :: y) -> exists x z, y = x ++ z /\ matches a (c :: x) /\ matches (Star a) z.
Proof.
  intro M. remember (Star a) as r eqn:R. remember (c :: y) as s eqn:E. revert y E.
  induction M as [|f c'|a' b' x' y' A IA B IB|a' b' x' A IA|a' b' x' A IA|a'|a' x' y' A IA B IB]; intros y E; try discriminate R; try discriminate E.
  injection R as ->. destruct x' as [|x0 x']; [apply IB; [reflexivity | exact E] |]. cbn [app] in E. injection E as -> <-. eauto.
Qed.
Lemma deriv_ok c r : forall x, matches (deriv c r) x <-> matches r (c :: x).
Proof.
  induction r as [| |f|a IHa b IHb|a IHa b IHb|a IHa]; intro x; cbn [deriv].
  - split; intro M; inversion M.
  - split; intro M; inversion M.
  - destruct (f c) eqn:E; split; intro M; inversion M; subst; [constructor; exact E | constructor | congruence].
  - assert (L : matches (Cat (deriv c a) b) x <-> exists y z, x = y ++ z /\ matches a (c :: y) /\ matches b z).
    { split; [intro M; inversion M; subst; eexists _, _; split; [reflexivity |]; rewrite <- IHa; auto |]. intros (y & z & -> & A & B). constructor; [rewrite IHa |]; auto. }
    assert (G : matches (Cat a b) (c :: x) <-> (exists y z, x = y ++ z /\ matches a (c :: y) /\ matches b z) \/ (matches a [] /\ matches b (c :: x))).
    { split.
      - intro M. inversion M as [| |a' b' y z A B E1 E2| | | |]; subst. destruct y as [|y0 y]; cbn [app] in E2; [subst; auto |]. injection E2 as -> <-. left. eauto.
      - intros [(y & z & -> & A & B)|[A B]]; [change (c :: y ++ z) with ((c :: y) ++ z); constructor; auto | change (c :: x) with ([] ++ c :: x); constructor; auto]. }
    rewrite G. destruct (nullable a) eqn:N.
    + apply null_ok in N. split; [intro M; inversion M; subst; [left; apply L; assumption | right; split; [assumption | apply IHb; assumption]] |].
      intros [H|[_ H]]; [apply m_altl, L; exact H | apply m_altr, IHb; exact H].
    + rewrite L. split; [auto | intros [H|[H _]]; [exact H |]]. apply null_ok in H. congruence.
  - split; intro M; inversion M; subst; [apply m_altl, IHa | apply m_altr, IHb | apply m_altl, IHa | apply m_altr, IHb]; assumption.
  - split.
    + intro M. inversion M as [| |a' b' y z A B| | | |]; subst. change (c :: y ++ z) with ((c :: y) ++ z). constructor; [apply IHa |]; assumption.
    + intro M. apply star_cons in M. destruct M as (y & z & -> & A & B). constructor; [apply IHa |]; assumption.
Qed.
(* the longest match *)
Lemma longest_some r s n : longest r s = Some n -> n <= List.length s /\ matches r (firstn n s) /\ forall m, n < m -> m <= List.length s -> ~ matches r (firstn m s).
Proof.
  revert r n. induction s as [|c s IH]; intros r n H; cbn [longest] in H.
  - destruct (nullable r) eqn:N; [injection H as <- | discriminate H]. split; [lia |]. split; [apply null_ok; exact N |]. cbn [List.length]. intros; lia.
  - destruct (longest (deriv c r) s) as [k|] eqn:E.
    + injection H as <-. apply IH in E. destruct E as (L & M & U). cbn [List.length firstn]. split; [lia |]. split; [apply deriv_ok; exact M |].
      intros [|m] G Lm; [lia |]. cbn [firstn]. intro Q. apply deriv_ok in Q. apply (U m); [lia | lia | exact Q].
    + destruct (nullable r) eqn:N; [injection H as <- | discriminate H]. cbn [firstn]. split; [lia |]. split; [apply null_ok; exact N |].
      intros [|m] G Lm; [lia |]. cbn [firstn List.length] in *. intro Q. apply deriv_ok in Q. clear IH N.
      revert m G Lm Q. generalize (deriv c r) E. clear E. induction s as [|c' s IH]; intros r' E m G Lm Q; cbn [longest] in E.
      * destruct (nullable r') eqn:N; [discriminate E |]. assert (m = 0) by (cbn [List.length] in Lm; lia). subst m. apply null_ok in Q. congruence.
      * destruct (longest (deriv c' r') s) as [k|] eqn:E'; [discriminate E |]. destruct (nullable r') eqn:N; [discriminate E |].
        destruct m as [|m]; [apply null_ok in Q; congruence |]. cbn [firstn] in Q. apply deriv_ok in Q. apply (IH _ E' m); [lia | cbn [List.length] in Lm; lia | exact Q].
Qed.
Lemma longest_none r s : longest r s = None -> forall m, m <= List.length s -> ~ matches r (firstn m s).
Proof.
  revert r. induction s as [|c s IH]; intros r H m L Q; cbn [longest] in H.
  - destruct (nullable r) eqn:N; [discriminate H |]. assert (m = 0) by (cbn [List.length] in L; lia). subst m. apply null_ok in Q. congruence.
  - destruct (longest (deriv c r) s) as [k|] eqn:E; [discriminate H |]. destruct (nullable r) eqn:N; [discriminate H |].
    destruct m as [|m]; [apply null_ok in Q; congruence |]. cbn [firstn] in Q. apply deriv_ok in Q. apply (IH _ E m); [cbn [List.length] in L; lia | exact Q].
Qed.
(* the rule taken: the first of those with the longest match of all *)
Lemma best_some {A} (rules : list (re * A)) s n a : best rules s = Some (n, a) ->
  n <= List.length s /\ exists l r l', rules = l ++ (r, a) :: l' /\ matches r (firstn n s) /\ (forall r' a', In (r', a') l -> ~ matches r' (firstn n s)) /\
  (forall r' a' m, In (r', a') rules -> n < m -> m <= List.length s -> ~ matches r' (firstn m s)).
Proof.
  revert n a. induction rules as [|[r b] rules IH]; intros n a H; cbn [best] in H; [discriminate H |].
  destruct (longest r s) as [k|] eqn:E.
  - apply longest_some in E. destruct E as (L & M & U).
    destruct (best rules s) as [[m c]|] eqn:B.
    + destruct (IH m c eq_refl) as (L' & l & r1 & l' & ER & M' & F' & U'). destruct (Nat.leb_spec m k) as [Q|Q]; injection H as <- <-.
      * split; [exact L |]. exists [], r, rules. split; [reflexivity |]. split; [exact M |]. split; [intros ? ? [] |]. intros r' a' j [I|I] G J; [injection I as <- <-; auto |]. apply (U' r' a'); auto. lia.
      * split; [exact L' |]. exists ((r, b) :: l), r1, l'. split; [cbn [app]; rewrite ER; reflexivity |]. split; [exact M' |]. split.
        -- intros r' a' [I|I]; [injection I as <- <-; apply U; auto | eauto].
        -- intros r' a' j [I|I] G J; [injection I as <- <-; apply U; auto; lia | eauto].
    + injection H as <- <-. split; [exact L |]. exists [], r, rules. split; [reflexivity |]. split; [exact M |]. split; [intros ? ? [] |].
      intros r' a' j [I|I] G J; [injection I as <- <-; auto |]. clear - B I J. induction rules as [|[r2 a2] rules IH]; [destruct I |]. cbn [best] in B.
      destruct (longest r2 s) as [z|] eqn:E2; [destruct (best rules s) as [[? ?]|]; [destruct (Nat.leb _ _) |]; discriminate B |].
      destruct I as [I|I]; [injection I as <- <-; apply (longest_none _ _ E2); exact J | auto].
  - destruct (IH n a H) as (L' & l & r1 & l' & ER & M' & F' & U'). split; [exact L' |]. exists ((r, b) :: l), r1, l'. split; [cbn [app]; rewrite ER; reflexivity |]. split; [exact M' |]. split.
    + intros r' a' [I|I]; [injection I as <- <-; apply (longest_none _ _ E); exact L' | eauto].
    + intros r' a' j [I|I] G J; [injection I as <- <-; apply (longest_none _ _ E); exact J | eauto].
Qed.
Lemma best_none {A} (rules : list (re * A)) s : best rules s = None -> forall r a m, In (r, a) rules -> m <= List.length s -> ~ matches r (firstn m s).
Proof.
  intros B r a m I J. induction rules as [|[r2 a2] rules IH]; [destruct I |]. cbn [best] in B.
  destruct (longest r2 s) as [z|] eqn:E2; [destruct (best rules s) as [[? ?]|]; [destruct (Nat.leb _ _) |]; discriminate B |].
  destruct I as [I|I]; [injection I as <- <-; apply (longest_none _ _ E2); exact J | auto].
Qed.
(* the characters in what a pattern matches *)
Fixpoint uses (c : ascii) (r : re) : bool :=
  match r with Nul | Eps => false | Chr f => f c | Cat a b | Alt a b => uses c a || uses c b | Star a => uses c a end.
Lemma uses_ok r x c : matches r x -> In c x -> uses c r = true.
Proof.
  intro M. induction M; cbn [uses]; intro I.
  - destruct I.
  - destruct I as [<-|[]]. assumption.
  - apply in_app_iff in I. apply orb_true_iff. destruct I; auto.
  - apply orb_true_iff. auto.
  - apply orb_true_iff. auto.
  - destruct I.
  - apply in_app_iff in I. destruct I; auto.
Qed.

(* ---- every text is scanned, and all of it ---- *)
Lemma initial_some c s : exists n a, best initial_rules (c :: s) = Some (n, a) /\ 1 <= n.
Proof.
  destruct (best initial_rules (c :: s)) as [[n a]|] eqn:B.
  - exists n, a. split; [reflexivity |]. destruct n as [|n]; [exfalso | lia]. apply best_some in B. destruct B as (_ & l & r & l' & ER & M & _). cbn [firstn] in M. apply null_ok in M.
    assert (I : In (r, a) initial_rules) by (rewrite ER; apply in_or_app; right; left; reflexivity).
    assert (Q : forallb (fun x => negb (nullable (fst x))) initial_rules = true) by reflexivity. rewrite forallb_forall in Q. specialize (Q _ I). cbn [fst] in Q. rewrite M in Q. discriminate Q.
  - exfalso. destruct (Ascii.eqb_spec c "010") as [->|N].
    + refine (best_none _ _ B EOL (Gather Skipped) 1 _ _ _); [cbn; auto 12 | cbn; lia |]. apply deriv_ok. apply null_ok. reflexivity.
    + refine (best_none _ _ B (Chr (fun c => negb (Ascii.eqb c "010"))) (Gather Fell) 1 _ _ _); [cbn; auto 14 | cbn; lia |]. cbn [firstn]. constructor.
      destruct (Ascii.eqb_spec c "010"); [congruence | reflexivity].
Qed.
Lemma paren_some c s : exists n a, best paren_rules (c :: s) = Some (n, a) /\ 1 <= n.
Proof.
  destruct (best paren_rules (c :: s)) as [[n a]|] eqn:B.
  - exists n, a. split; [reflexivity |]. destruct n as [|n]; [exfalso | lia]. apply best_some in B. destruct B as (_ & l & r & l' & ER & M & _). cbn [firstn] in M. apply null_ok in M.
    assert (I : In (r, a) paren_rules) by (rewrite ER; apply in_or_app; right; left; reflexivity).
    assert (Q : forallb (fun x => negb (nullable (fst x))) paren_rules = true) by reflexivity. rewrite forallb_forall in Q. specialize (Q _ I). cbn [fst] in Q. rewrite M in Q. discriminate Q.
  - exfalso. destruct (existsb (Ascii.eqb c) (lit "[]()")) eqn:K.
    + assert (K2 : existsb (Ascii.eqb c) (lit "[(") = true \/ existsb (Ascii.eqb c) (lit "])") = true).
      { cbn in K |- *. destruct (Ascii.eqb c "["), (Ascii.eqb c "]"), (Ascii.eqb c "("), (Ascii.eqb c ")"); try discriminate K; auto. }
      destruct K2 as [K2|K2]; [refine (best_none _ _ B (any_of "[(") Open 1 _ _ _) | refine (best_none _ _ B (any_of "])") Close 1 _ _ _)]; try (cbn; auto; fail); try (cbn; lia); cbn [firstn]; constructor; exact K2.
    + refine (best_none _ _ B (plus (Chr (fun c => negb (existsb (Ascii.eqb c) (lit "[]()"))))) (Gather TT_PAREN) 1 _ _ _); [cbn; auto | cbn; lia |]. cbn [firstn].
      change [c] with ([c] ++ []). constructor; constructor. rewrite K. reflexivity.
Qed.
Theorem scan_total : forall f paren d s, List.length s < f -> exists ts, scan f paren d s = Ok ts /\ List.concat (map snd ts) = s.
Proof.
  induction f as [|f IH]; intros paren d s L; [lia |]. cbn [scan]. destruct s as [|c s]; [exists []; auto |].
  assert (B : exists n a, best (if paren then paren_rules else initial_rules) (c :: s) = Some (n, a) /\ 1 <= n) by (destruct paren; [apply paren_some | apply initial_some]).
  destruct B as (n & a & -> & N1). set (kst := match a with Gather k => (k, (paren, d)) | Open => (TT_PAREN, (true, d + 1)%Z) | Close => (TT_PAREN, (negb (d - 1 =? 0)%Z, d - 1)%Z) end).
  destruct kst as [k st]. destruct (IH (fst st) (snd st) (skipn n (c :: s))) as (ts & E & C); [rewrite skipn_length; cbn [List.length] in *; lia |].
  rewrite E. cbn [obind]. eexists. split; [reflexivity |]. cbn [map snd List.concat]. rewrite C. apply firstn_skipn.
Qed.
