(* The walk of terms.c goes through: short texts. *)
From Coq Require Import String List NArith ZArith Bool Arith Lia.
From Verif Require Import Base GramProofs TreeModel TermsModel TermsSpec WalkSpec WalkProofs7 RoomSpec WalkTotal3 PassProofs2.
Import ListNotations.
Open Scope string_scope.
Open Scope list_scope.

Definition tallies (f : string -> list tree -> bool) (ch : list tree) : nat := list_sum (map (tally f) ch).
Lemma tally_nt f k ch : tally f (NT k ch) = (if f k ch then 1 else 0) + tallies f ch.
Proof. reflexivity. Qed.
Definition tally_at (f : string -> list tree -> bool) (T : tree) (p : path) : nat := match subtree T p with Some x => tally f x | None => 0 end.

Lemma tallies_nth f ch j c : nth_error ch j = Some c -> tally f c <= tallies f ch.
Proof.
  revert j. induction ch as [|c' ch IH]; intros [|j] N; try discriminate N; unfold tallies; cbn [map list_sum fold_right nth_error] in *.
  - injection N as ->. lia.
  - specialize (IH _ N). unfold tallies, list_sum in IH. lia.
Qed.
Lemma subtree_snoc T p i : subtree T (p ++ [i]) = match subtree T p with Some (NT k ch) => nth_error ch i | _ => None end.
Proof.
  revert T. induction p as [|j p IH]; intros [n|k ch]; cbn [app subtree]; try reflexivity.
  - destruct (nth_error ch i); reflexivity.
  - destruct (nth_error ch j); [apply IH | reflexivity].
Qed.
Lemma tally_child f T p i : tally_at f T (p ++ [i]) <= tally_at f T p.
Proof.
  unfold tally_at. rewrite subtree_snoc. destruct (subtree T p) as [[n|k ch]|]; [lia | | lia]. destruct (nth_error ch i) as [c|] eqn:N; [| lia].
  pose proof (tallies_nth f _ _ _ N). rewrite tally_nt. lia.
Qed.
Lemma tally_le f T p : tally_at f T p <= tally f T.
Proof.
  induction p as [|i p IH] using rev_ind; [unfold tally_at; cbn [subtree]; lia |]. pose proof (tally_child f T p i). lia.
Qed.

Lemma marked_one p w : List.length (marked p w) <= 1.
Proof.
  unfold marked. destruct (String.eqb w "fi'a"); [cbn; lia |]. cbn [fa_words flat_map fst snd].
  repeat match goal with |- context [String.eqb ?a w] => destruct (String.eqb_spec a w); [subst w; cbn; lia |] end. cbn. lia.
Qed.
Lemma sort_one x : List.length (sort x) <= 1.
Proof.
  destruct x as [p [n|k ch]]; unfold sort; cbn [snd fst]; [cbn; lia |]. destruct ch as [|[n|k' cc] ch]; try (cbn; lia).
  destruct (String.eqb k' "TERM_PLAIN_SUMTI"); [cbn; lia |]. destruct (String.eqb k' "TERM_PLACED_SUMTI").
  - destruct cc as [|c cc]; [cbn; lia |]. destruct (word c) as [[r n]|]; [apply marked_one | cbn; lia].
  - destruct (among _ _); cbn; lia.
Qed.
Lemma sorts_le l : List.length (sorts l) <= List.length l.
Proof. induction l as [|x l IH]; cbn [sorts flat_map List.length]; [lia |]. rewrite app_length. pose proof (sort_one x). unfold sorts in IH. lia. Qed.
Lemma sorts_app a b : sorts (a ++ b) = sorts a ++ sorts b.
Proof. apply flat_map_app. Qed.

Lemma terms_le x : forall p, List.length (terms_in p x) <= tally a_term x.
Proof.
  induction x as [n|k ch IH] using tree_ind2; intro p; [cbn; lia |]. rewrite tally_nt. cbn [terms_in]. unfold a_term at 1.
  destruct (String.eqb k "TERM"); [cbn [List.length]; lia |]. match goal with |- context [if ?b then _ else _] => destruct b end; [| cbn; lia]. cbn [Nat.add].
  generalize 0. induction ch as [|c ch IHc]; intro i; [cbn; lia |]. inversion IH as [|? ? H1 H2]; subst. rewrite app_length. unfold tallies. cbn [map list_sum fold_right].
  specialize (H1 (p ++ [i])). specialize (IHc H2 (S i)). unfold tallies, list_sum in IHc. lia.
Qed.
Lemma kids_le p ch : forall i, List.length (kid_terms "TERMS" p i ch) + List.length (kid_terms "TAIL_TERMS" p i ch) <= tallies a_term ch.
Proof.
  induction ch as [|c ch IH]; intro i; [cbn; lia |]. cbn [kid_terms]. rewrite !app_length. unfold tallies. cbn [map list_sum fold_right]. specialize (IH (S i)). unfold tallies, list_sum in IH.
  pose proof (terms_le c (p ++ [i])). destruct (String.eqb_spec (kind c) "TERMS") as [Q|]; [rewrite Q; cbn [String.eqb Ascii.eqb Bool.eqb] |]; cbn [List.length]; [lia |].
  destruct (String.eqb (kind c) "TAIL_TERMS"); cbn [List.length]; lia.
Qed.
Definition of_terms (c : tree) : bool := String.eqb (kind c) "TERMS" || String.eqb (kind c) "TAIL_TERMS".
Lemma kids_nth p ch j c : nth_error ch j = Some c -> of_terms c = false -> forall i,
  List.length (kid_terms "TERMS" p i ch) + List.length (kid_terms "TAIL_TERMS" p i ch) + tally a_term c <= tallies a_term ch.
Proof.
  intros N O. apply orb_false_iff in O. destruct O as [O1 O2]. revert j N. induction ch as [|c' ch IH]; intros [|j] N i; try discriminate N; cbn [nth_error] in N.
  - injection N as ->. cbn [kid_terms]. rewrite O1, O2. cbn [app]. pose proof (kids_le p ch (S i)). unfold tallies in *. cbn [map list_sum fold_right]. unfold list_sum in *. lia.
  - specialize (IH _ N (S i)). cbn [kid_terms]. rewrite !app_length. unfold tallies in *. cbn [map list_sum fold_right]. unfold list_sum in *. pose proof (terms_le c' (p ++ [i])).
    destruct (String.eqb_spec (kind c') "TERMS") as [Q|]; [rewrite Q; cbn [String.eqb Ascii.eqb Bool.eqb] |]; cbn [List.length]; [lia |].
    destruct (String.eqb (kind c') "TAIL_TERMS"); cbn [List.length]; lia.
Qed.
Definition kept (T : tree) (p : path) : nat := match subtree T p with Some x => if of_terms x then 0 else tally a_term x | None => 0 end.
Lemma around T p : List.length (before T p) + List.length (after T p) + kept T p <= tally a_term T.
Proof.
  unfold before, after. induction p as [|j p IH] using rev_ind.
  - cbn [rev before_r after_r sorts flat_map List.length]. unfold kept. cbn [subtree]. destruct (of_terms T); lia.
  - rewrite rev_app_distr. cbn [rev app before_r after_r]. rewrite rev_involutive.
    assert (KL : kept T (p ++ [j]) <= tally a_term T).
    { pose proof (tally_le a_term T (p ++ [j])) as L. unfold kept, tally_at in *. destruct (subtree T (p ++ [j])) as [x|]; [| lia]. destruct (of_terms x); lia. }
    destruct (subtree T p) as [[n|k ch]|] eqn:E; [cbn [sorts flat_map List.length]; lia | | cbn [sorts flat_map List.length]; lia].
    destruct (bridi_part k) eqn:B; [| cbn [sorts flat_map List.length]; lia]. rewrite !sorts_app, !app_length.
    assert (OK : of_terms (NT k ch) = false).
    { unfold of_terms. cbn [kind]. destruct (String.eqb_spec k "TERMS") as [->|]; [discriminate B |]. destruct (String.eqb_spec k "TAIL_TERMS") as [->|]; [discriminate B | reflexivity]. }
    assert (KP : kept T p = tally a_term (NT k ch)) by (unfold kept; rewrite E, OK; reflexivity).
    pose proof (sorts_le (kid_terms "TERMS" p 0 ch)). pose proof (sorts_le (kid_terms "TAIL_TERMS" p 0 ch)). rewrite KP, tally_nt in IH.
    assert (List.length (kid_terms "TERMS" p 0 ch) + List.length (kid_terms "TAIL_TERMS" p 0 ch) + kept T (p ++ [j]) <= tallies a_term ch); [| lia].
    unfold kept. rewrite subtree_snoc, E. destruct (nth_error ch j) as [c|] eqn:N; [| pose proof (kids_le p ch 0); lia].
    destruct (of_terms c) eqn:O; [pose proof (kids_le p ch 0); lia | apply (kids_nth p ch j c N O)].
Qed.

Definition fill (T : tree) (p : path) (a : args) : Prop :=
  let '(pre, post, lc) := a in
  List.length pre + List.length post + list_sum (map linked_terms (map fst lc)) + tally_at a_term T p <= tally a_term T /\
  List.length lc + tally_at a_layer T p <= tally a_layer T.
Lemma layer_kid T p k i k' : kid T p k i k' -> (forall ch, a_layer k ch = true) -> S (tally_at a_layer T (p ++ [i])) <= tally_at a_layer T p.
Proof.
  intros (ch & cc & E & N) L. unfold tally_at. rewrite subtree_snoc, E, N, (tally_nt _ k), L. pose proof (tallies_nth a_layer _ _ _ N). lia.
Qed.
Lemma sum_snoc l e : list_sum (map linked_terms (map fst (l ++ [e]))) = list_sum (map linked_terms (map fst l)) + linked_terms (fst (e : link_conv * path)).
Proof. rewrite !map_app, list_sum_app. cbn [map list_sum fold_right]. lia. Qed.
Lemma step_fill T p a i b : step T p a i b -> fill T p a -> fill T (p ++ [i]) b.
Proof.
  intros ST FI. pose proof (tally_child a_term T p i) as C1. pose proof (tally_child a_layer T p i) as C2.
  destruct ST as [p k i k' a K H|p k k' cc a E H|p i j pre post lc K1 K2 _|p j pre post lc K|p c la pre post lc E|p c rest i r x n pre post lc E W I K|p i pre post lc K|p i j pre post lc K K2];
    try (destruct a as [[pre post] lc]); cbn [fill List.length] in *; destruct FI as [F1 F2]; try (split; lia).
  - rewrite sum_snoc, app_length. cbn [fst linked_terms List.length]. pose proof (sorts_le (terms_in (p ++ [1]) la)). pose proof (terms_le la (p ++ [1])).
    unfold tally_at in *. rewrite subtree_snoc, E in *. cbn [nth_error] in *. rewrite (tally_nt a_term "TANRU_UNIT_1") in F1. rewrite (tally_nt a_layer "TANRU_UNIT_1") in F2.
    unfold tallies in *. cbn [map list_sum fold_right] in *. change (a_layer "TANRU_UNIT_1" [c; la]) with true in F2. cbn iota in F2. split; lia.
  - rewrite sum_snoc, app_length. cbn [fst linked_terms List.length]. pose proof (layer_kid _ _ _ _ _ K (fun _ => eq_refl)). split; lia.
  - rewrite sum_snoc, app_length. cbn [fst linked_terms List.length]. pose proof (layer_kid _ _ _ _ _ K (fun _ => eq_refl)). split; lia.
  - rewrite sum_snoc, app_length. cbn [fst linked_terms List.length]. pose proof (layer_kid _ _ _ _ _ K (fun _ => eq_refl)). split; lia.
Qed.
Lemma down_fill T p a q b : down T p a q b -> fill T p a -> fill T q b.
Proof. induction 1 as [|p a i b q c ST _ IH]; [auto |]. intro F. apply IH. eapply step_fill; eassumption. Qed.
Lemma source_fill T s a : source T s a -> fill T s a.
Proof.
  intros [BE|[_ ->]]; [| cbn; split; apply tally_le]. destruct BE as [p k ch E K|p k i K KA]; [| cbn; split; apply tally_le].
  pose proof (around T p) as A. pose proof (tally_child a_term T p 0) as C. pose proof (tally_le a_layer T (p ++ [0])).
  assert (KP : kept T p = tally_at a_term T p).
  { unfold kept, tally_at. rewrite E. unfold among in K. cbn [existsb] in K. rewrite orb_false_r in K. apply orb_true_iff in K. destruct K as [K|K]; apply String.eqb_eq in K; subst k; reflexivity. }
  unfold fill. cbn [map list_sum fold_right List.length]. rewrite KP in A. split; lia.
Qed.
Lemma tally_zero f T p k ch : tally f T = 0 -> subtree T p = Some (NT k ch) -> f k ch = false.
Proof. intros Z E. pose proof (tally_le f T p) as L. unfold tally_at in L. rewrite E, tally_nt in L. destruct (f k ch); [lia | reflexivity]. Qed.
Theorem short_modest T : short_text T -> modest T.
Proof.
  intros (S1 & S2 & S3). unfold modest, held. split; [intro p; pose proof (around T p); lia |]. split; [| split].
  - intros p c la E. pose proof (sorts_le (terms_in (p ++ [1]) la)). pose proof (terms_le la (p ++ [1])). pose proof (tally_le a_term T (p ++ [1])) as L.
    unfold tally_at in L. rewrite subtree_snoc, E in L. cbn [nth_error] in L. lia.
  - intros s a q pre post lc SO D. destruct (down_fill _ _ _ _ _ D (source_fill _ _ _ SO)) as [F1 F2]. split; lia.
  - intros p ch E L. pose proof (tally_zero _ _ _ _ _ S3 E) as B. unfold bare_tail in B. rewrite String.eqb_refl in B. cbn [andb] in B.
    destruct (Nat.eqb_spec (List.length ch) 1) as [|_]; [contradiction |]. cbn [negb andb] in B. apply negb_false_iff in B. apply existsb_exists in B. destruct B as (c & I & B).
    destruct c as [n|k dd]; [discriminate B |]. apply andb_true_iff in B. destruct B as [B1 B2]. apply String.eqb_eq in B1. subst k.
    apply existsb_exists in B2. destruct B2 as (d & J & B2). destruct d as [n|k ee]; [discriminate B2 |]. cbn [is_nt] in B2. apply String.eqb_eq in B2. subst k.
    apply In_nth_error in I. apply In_nth_error in J. destruct I as (i & I). destruct J as (j & J). exists i, j, dd, ee. auto.
Qed.
