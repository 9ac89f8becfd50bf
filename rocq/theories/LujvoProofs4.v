(* The lujvo maker: one candidate. *)
From Coq Require Import String Ascii List NArith ZArith Bool Arith Lia.
From Verif Require Import Base LujvoData LujvoModel LujvoSpec LujvoProofs LujvoProofs2 LujvoProofs3.
Import ListNotations.
Open Scope list_scope.

(* ---- strict and lax agree on what is left of a proper word ---- *)
Lemma lax_end l : parts_lax l -> parts l \/
  exists pre a b v c u, joined l = pre ++ [a; b; v; c; u] /\ vow v = true /\ cons c = true /\ vow u = true /\ (initial_pair a b = true -> parts l).
Proof.
  induction 1 as [k p Hk F | a b v c u Hp Hv Hc Hu | k p l Hk F P IH].
  - left. now constructor.
  - right. exists [], a, b, v, c, u. repeat split; auto. intros I. constructor; [reflexivity | now constructor].
  - destruct l as [|y l]; [now apply lax_nonempty in P|].
    destruct IH as [IH | [pre [a [b [v [c [u [E [Hv [Hc [Hu I]]]]]]]]]]].
    + left. now constructor.
    + right. exists (p ++ y_if (y_between (k, p) y) ++ pre), a, b, v, c, u. rewrite joined_cons, E. cbn [snd]. rewrite <- !app_assoc.
      repeat split; auto. intros I'. constructor; auto.
Qed.
Lemma parts_end l : parts l -> exists pre k p, joined l = pre ++ p /\ final k = true /\ form k p.
Proof.
  induction 1 as [k p Hk F | k p l Hk F P IH].
  - exists [], k, p. auto.
  - destruct l as [|y l]; [inversion P|]. destruct IH as [pre [k' [p' [E [Hk' F']]]]].
    exists (p ++ y_if (y_between (k, p) y) ++ pre), k', p'. rewrite joined_cons, E. cbn [snd]. rewrite <- !app_assoc. auto.
Qed.
Lemma app_last_inv {A} (a b : list A) x y : a ++ [x] = b ++ [y] -> a = b /\ x = y.
Proof. apply app_inj_tail. Qed.
Lemma own_strict c l : parts l -> on_its_own_lax (c :: joined l) <-> on_its_own (c :: joined l).
Proof.
  intros P. split.
  - intros [k [p [l' [Hk [Hl [P' E]]]]]]. exists k, p, l'. repeat split; auto.
    destruct (lax_end _ P') as [S | [pre [a [b [v [c' [u [E' [Hv [Hc [Hu I]]]]]]]]]]]; [exact S|].
    destruct (parts_end _ P) as [pre' [k' [p' [E2 [Hk' F']]]]].
    rewrite E', E2 in E. clear E' E2. apply I.
    change (c :: pre' ++ p') with ((c :: pre') ++ p') in E.
    destruct F' as [| | | | | | |]; try discriminate Hk';
      repeat match goal with
      | H : ?x ++ [?a; ?b; ?c; ?d; ?e] = _ |- _ => change [a; b; c; d; e] with ([a; b; c; d] ++ [e]) in H; rewrite app_assoc in H
      | H : ?x ++ [?a; ?b; ?c; ?d] = _ |- _ => change [a; b; c; d] with ([a; b; c] ++ [d]) in H; rewrite app_assoc in H
      | H : ?x ++ [?a; ?b; ?c] = _ |- _ => change [a; b; c] with ([a; b] ++ [c]) in H; rewrite app_assoc in H
      | H : ?x ++ [?a; ?b] = _ |- _ => change [a; b] with ([a] ++ [b]) in H; rewrite app_assoc in H
      | H : _ = ?x ++ [?a; ?b; ?c; ?d; ?e] |- _ => change [a; b; c; d; e] with ([a; b; c; d] ++ [e]) in H; rewrite app_assoc in H
      | H : _ = ?x ++ [?a; ?b; ?c; ?d] |- _ => change [a; b; c; d] with ([a; b; c] ++ [d]) in H; rewrite app_assoc in H
      | H : _ = ?x ++ [?a; ?b; ?c] |- _ => change [a; b; c] with ([a; b] ++ [c]) in H; rewrite app_assoc in H
      | H : _ = ?x ++ [?a; ?b] |- _ => change [a; b] with ([a] ++ [b]) in H; rewrite app_assoc in H
      | H : _ ++ [_] = _ ++ [_] |- _ => apply app_last_inv in H; let K := fresh in destruct H as [H K]; subst
      end; know; try congruence; destruct apos_not as [? [? ?]]; congruence.
  - intros [k [p [l' [Hk [Hl [P' E]]]]]]. exists k, p, l'. repeat split; auto. now apply parts_parts_lax.
Qed.
Lemma parts_uncons x y l : parts (x :: y :: l) -> medial (fst x) = true /\ form (fst x) (snd x) /\ parts (y :: l).
Proof. intros P. inversion P; subst. auto. Qed.
Lemma strict_lax l t : parts l -> lujvo l t ->
  (exists k p y, (k = CVV \/ k = CVhV) /\ l = [(k, p); y] /\ fst y <> CCV) \/ lujvo_lax l t.
Proof.
  intros P J. destruct J as [k p y l Hk | p y l Hy | p y l Hy Hn | k p q Hk | k p y l Hk Hyl]; try (right; now constructor).
  - destruct (parts_uncons _ _ _ P) as [_ [_ P']]. right. constructor. destruct Hy as [Hy|Hy]; auto. right. now apply own_strict.
  - destruct (parts_uncons _ _ _ P) as [_ [_ P']]. right. constructor; auto. intros K. apply Hn. now apply own_strict.
  - destruct l as [|z l].
    + destruct y as [k' q]. destruct Hyl as [Hyl|Hyl]; [|congruence]. left. eauto 10.
    + right. constructor; auto. right. discriminate.
Qed.
(* the two-part words for which the checker reads an unset variable *)
Lemma unset k p k' q h : k = CVV \/ k = CVhV -> parts [(k, p); (k', q)] -> k' <> CCV ->
  h = [] /\ letter q 0 <> "r"%char /\ letter q 0 <> "n"%char \/ h = [hyphen_rn (k', q)] -> is_valid_lujvo (p ++ h ++ q) = UB UB_uninit.
Proof.
  intros Hk P Hk' Hh. unfold is_valid_lujvo.
  assert (G : forall fuel, (List.length (p ++ h ++ q) < fuel)%nat -> ivl fuel (p ++ h ++ q) 0 false false None = UB UB_uninit); [|apply G; lia].
  intros fuel L. destruct (parts_uncons _ _ _ P) as [_ [F P']]. cbn [fst snd] in F.
  pose proof (fun fuel sc hr fc => ivl_tail_ok _ (parts_parts_lax _ P') fuel 1 sc hr fc ltac:(lia)) as T.
  destruct (lax_head _ (parts_parts_lax _ P')) as [x [z [z' [r [E [Hx [_ [k2 [p2 [l2 [El [Lx Lz]]]]]]]]]]]].
  injection El as <- <- <-. cbn [joined snd] in T, E. subst q.
  assert (T' : forall fuel hr, (List.length (x :: z :: z' :: r) < fuel)%nat -> ivl fuel (x :: z :: z' :: r) 1 true hr None = UB UB_uninit).
  { intros fuel' hr' Lf. rewrite T by exact Lf. unfold ivl_end. destruct k'; try reflexivity. congruence. }
  clear T P P' Lz. destruct fuel as [|fuel]; [lia|]. unfold hyphen_rn in Hh. cbn [snd] in Hh. rewrite Lx in Hh. clear Lx.
  destruct Hh as [[-> [N1 N2]] | Hh].
  - assert (E1 : ceq x "r" = false) by now apply Ascii.eqb_neq. assert (E2 : ceq x "n" = false) by now apply Ascii.eqb_neq.
    clear N1 N2. destruct Hk as [-> | ->]; inversion F; subst; clear F; know; cbn [app List.length] in L |- *; start; use;
    rewrite ?Ascii.eqb_refl; cbn [Nat.ltb Nat.leb andb orb]; use; apply T'; cbn [List.length]; lia.
  - assert (Hh' : forall h, h = (if Ascii.eqb x "r" then "n"%char else "r"%char) -> ceq h "r" && negb (ceq x "r") || ceq h "n" && ceq x "r" = true).
    { intros h' ->. unfold ceq. destruct (Ascii.eqb x "r"); reflexivity. }
    match type of Hh with _ = [?h] => specialize (Hh' h eq_refl); remember h as hy eqn:Ehy; clear Ehy end. subst h.
    destruct Hk as [-> | ->]; inversion F; subst; clear F; know; cbn [app List.length] in L |- *; start; use;
    rewrite ?Ascii.eqb_refl; cbn [Nat.ltb Nat.leb andb orb]; use; apply T'; cbn [List.length]; lia.
Qed.

(* ---- hyphens after the first part ---- *)
Lemma final_or_medial_head k p : form k p -> exists a b, at_ p 0 = a /\ at_ p 1 = b /\ letter p 0 = a /\ letter p 1 = b /\ cons a = true /\
  (vow b = true \/ cons b = true /\ initial_pair a b = true).
Proof. destruct 1; know; do 2 eexists; repeat split; auto. Qed.
Lemma vow_pair v c : vow v = true -> cons c = true -> is_pairok v c = true.
Proof.
  intros Hv Hc. pose proof (by_chars (fun v => implb (vow v) (forallb (is_pairok v) consonants)) ltac:(vm_compute; reflexivity) v) as H.
  cbv beta in H. rewrite Hv in H. cbn [implb] in H. rewrite forallb_forall in H. apply H. now apply cons_in.
Qed.
Definition y_glue (b : bool) : glue := if b then Some "y"%char else None.
Lemma pair_two a b x y : pair_is a b (String x (String y EmptyString)) = ceq a x && ceq b y.
Proof. reflexivity. Qed.
Lemma bad_n a b c : bad_triple a b c =
  ceq a "n" && (pair_is b c "dj" || pair_is b c "dz" || pair_is b c "tc" || pair_is b c "ts").
Proof.
  rewrite <- triple_facts. Transparent is_bad_triple. unfold is_bad_triple. Opaque is_bad_triple.
  unfold triple_is, pair_is. cbn [w list_ascii_of_string].
  destruct (ceq a "n"); cbn [andb]; [|reflexivity].
  destruct (ceq b "t"), (ceq b "d"), (ceq c "c"), (ceq c "s"), (ceq c "j"), (ceq c "z"); reflexivity.
Qed.
Lemma joint k p k' p' : medial k = true -> form k p -> form k' p' ->
  (if is_four p then true else negb (can_join p p')) = y_between (k, p) (k', p').
Proof.
  intros Hk F F'. destruct (final_or_medial_head k' p' F') as [x [y [E0 [E1 [L0 [L1 [Hx Hy]]]]]]].
  assert (J : forall e, last_of p = e -> can_join p p' = is_pairok e x && negb (bad_triple e x y)).
  { intros e Ee. unfold can_join, C. rewrite Ee, E0, E1, bad_n.
    destruct Hy as [Hy | [Hy Hi]].
    - know. use. destruct (is_pairok e x); cbn [andb]; [|reflexivity].
      unfold pair_is. cbn [w list_ascii_of_string].
      assert (Z : ceq y "j" = false /\ ceq y "z" = false /\ ceq y "c" = false /\ ceq y "s" = false).
      { pose proof (by_chars (fun y => implb (vow y) (negb (ceq y "j") && negb (ceq y "z") && negb (ceq y "c") && negb (ceq y "s"))) ltac:(vm_compute; reflexivity) y) as H'.
        cbv beta in H'. rewrite Hy in H'. cbn [implb] in H'. rewrite !andb_true_iff, !negb_true_iff in H'. tauto. }
      destruct Z as [-> [-> [-> ->]]]. now rewrite !andb_false_r.
    - know. use. destruct (is_pairok e x); cbn [andb]; [|reflexivity].
      destruct (ceq e "n"); cbn [andb negb]; [|reflexivity]. now rewrite !negb_orb. }
  unfold y_between. cbn [fst snd]. rewrite L0, L1.
  destruct F; try discriminate Hk; unfold is_four; cbn [List.length Nat.eqb andb at_ nth]; know;
    rewrite ?(J _ eq_refl); cbn [last_of last letter nth]; use; rewrite ?Ascii.eqb_refl; cbn [negb andb]; try reflexivity.
  - destruct (pair_facts b x ltac:(assumption) ltac:(assumption)) as [-> _]. now rewrite negb_andb, negb_involutive.
  - rewrite vow_pair, bad_n by assumption. use. reflexivity.
  - rewrite vow_pair, bad_n by assumption. use. reflexivity.
  - rewrite vow_pair, bad_n by assumption. use. reflexivity.
Qed.
