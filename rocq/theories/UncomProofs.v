(* Proofs for C86. *)
From Coq Require Import Ascii String List Arith Bool Lia.
From Verif Require Import FlexModel UncomModel UncomSpec.
From Verif Require FlexProofs FlexProofs2.
Import FlexProofs(app_assoc_s, app_nil_s, len_app, sub_app, after_app, concat_cons, span_app, forallb_ascii, stops).
Import ListNotations.
Open Scope string_scope.
Open Scope list_scope.

Lemma starts_app : forall l r, starts l (l ++ r) = true.
Proof. induction l; intro r; [reflexivity|]. change (String a l ++ r)%string with (String a (l ++ r)). cbn [starts]. rewrite Ascii.eqb_refl. apply IHl. Qed.
Lemma starts_ok : forall l s, starts l s = true <-> begins l s.
Proof.
  intros l s. split; [|intros [r ->]; apply starts_app]. revert s. induction l as [|a l IH]; intros s H; [exists s; reflexivity|].
  destruct s as [|c s]; [discriminate|]. cbn [starts] in H. apply andb_true_iff in H. destruct H as [H1 H2].
  apply Ascii.eqb_eq in H1. subst c. destruct (IH s H2) as [r ->]. exists r. reflexivity.
Qed.
Lemma starts_no : forall l s, ~ begins l s -> starts l s = false.
Proof. intros l s N. destruct (starts l s) eqn:E; [elim N; now apply starts_ok|reflexivity]. Qed.
Lemma letter_ok : forall c, name_letter c <-> mark_letter c = true.
Proof.
  intro c. set (P := fun c => Bool.eqb (existsb (Ascii.eqb c) (list_ascii_of_string "ABCDEFGHIJKLMNOPQRSTUVWXYZh")) (mark_letter c)).
  assert (E : P c = true) by (apply (forallb_ascii P); vm_compute; reflexivity). unfold P in E. apply eqb_prop in E. rewrite <- E.
  unfold name_letter. rewrite existsb_exists. split.
  - intro I. exists c. split; [exact I|apply Ascii.eqb_refl].
  - intros [x [I Q]]. apply Ascii.eqb_eq in Q. now subst.
Qed.
Lemma mark_stays : forall m r, stays m -> mark (m ++ r) = Some (String.length m).
Proof.
  intros m r [->|[n [N [F ->]]]]; unfold mark.
  - now rewrite starts_app.
  - change (starts "/* error */" (("/* ET " ++ n ++ " */") ++ r)) with false. cbv iota.
    rewrite !app_assoc_s. rewrite starts_app. change (after 6 ("/* ET " ++ n ++ " */" ++ r)%string) with (n ++ " */" ++ r)%string.
    cbv zeta. rewrite (span_app mark_letter n (" */" ++ r)%string).
    + rewrite after_app, starts_app. destruct n as [|c n]; [congruence|]. rewrite !len_app. cbn [Nat.ltb Nat.leb String.length andb]. f_equal; lia.
    + eapply Forall_impl; [|exact F]. intros c. apply letter_ok.
    + reflexivity.
Qed.
Lemma mark_some : forall s n, mark s = Some n -> exists m r, stays m /\ s = (m ++ r)%string /\ n = String.length m.
Proof.
  intros s n H. unfold mark in H. destruct (starts "/* error */" s) eqn:E.
  - injection H as <-. apply starts_ok in E. destruct E as [r ->]. exists "/* error */", r. repeat split. now left.
  - destruct (starts "/* ET " s) eqn:E2; [|discriminate]. apply starts_ok in E2. destruct E2 as [r ->].
    change (after 6 ("/* ET " ++ r)%string) with r in H. cbv zeta in H.
    destruct (FlexProofs2.span_split mark_letter r) as [h [S1 [S2 S3]]].
    assert (L : String.length h = span mark_letter r).
    { rewrite S1 at 1. symmetry. apply span_app; assumption. }
    destruct ((0 <? span mark_letter r)%nat && starts " */" (after (span mark_letter r) r)) eqn:E3; [|discriminate].
    apply andb_true_iff in E3. destruct E3 as [E3 E4]. apply Nat.ltb_lt in E3. apply starts_ok in E4. destruct E4 as [r2 E4].
    injection H as <-. exists ("/* ET " ++ h ++ " */")%string, r2. split; [|split].
    + right. exists h. split; [intros ->; cbn in L; lia|]. split; [|reflexivity]. eapply Forall_impl; [|exact S2]. intros c. apply letter_ok.
    + rewrite S1, E4, !app_assoc_s. reflexivity.
    + rewrite !len_app. cbn [String.length]. lia.
Qed.
Lemma mark_none : forall s, (forall m, stays m -> ~ begins m s) -> mark s = None.
Proof.
  intros s H. destruct (mark s) as [n|] eqn:E; [|reflexivity]. destruct (mark_some s n E) as [m [r [S [Q _]]]].
  elim (H m S). exists r. exact Q.
Qed.
Lemma mark_opens : forall m r, stays m -> begins "/*" (m ++ r)%string.
Proof. intros m r [->|[n [_ [_ ->]]]]; eexists; reflexivity. Qed.
Lemma mark_len : forall m, stays m -> 2 <= String.length m.
Proof. intros m [->|[n [_ [_ ->]]]]; cbn; lia. Qed.

(* ------------------------------------------------------------------ removing *)
Lemma step_open : forall f d r, uncom_scan (S f) (S d) ("/*" ++ r) = uncom_scan f (S (S d)) r.
Proof. intros. destruct d; reflexivity. Qed.
Lemma step_close : forall f d r, uncom_scan (S f) (S d) ("*/" ++ r) = uncom_scan f d r.
Proof. reflexivity. Qed.
Lemma scan_inside : forall b t d o, proper_inside b t ->
  (forall f, String.length t < f -> uncom_scan f (S d) t = Some o) ->
  forall f, String.length (inner b ++ t) < f -> uncom_scan f (S d) (inner b ++ t) = Some o.
Proof.
  induction b as [|c b IH|n IHn b IHb]; intros t d o P H f L.
  - exact (H f L).
  - destruct P as [P1 [P2 P3]]. cbn [inner] in *. change (String c (inner b) ++ t)%string with (String c (inner b ++ t)) in *.
    destruct f as [|f]; [cbn in L; lia|]. cbn [uncom_scan]. rewrite (starts_no _ _ P1), (starts_no _ _ P2).
    apply (IH t d o P3 H). cbn [String.length] in L. lia.
  - destruct P as [P1 P2]. cbn [inner] in *. rewrite !app_assoc_s in *.
    destruct f as [|f]; [cbn in L; lia|]. rewrite step_open.
    apply (IHn ("*/" ++ inner b ++ t)%string (S d) o P1).
    + intros g G. destruct g as [|g]; [cbn in G; lia|]. rewrite step_close. apply (IHb t d o P2 H).
      change (S (S (String.length (inner b ++ t))) < S g) in G. lia.
    + change (S (S (String.length (inner n ++ "*/" ++ inner b ++ t))) < S f) in L. lia.
Qed.
Lemma scan_unclosed : forall u, unclosed u -> forall d f, String.length u < f -> uncom_scan f (S d) u = Some "".
Proof.
  induction 1 as [|c t P1 P2 U IH|b t P U IH|t U IH]; intros d f L.
  - destruct f; [cbn in L; lia|reflexivity].
  - destruct f as [|f]; [cbn in L; lia|]. cbn [uncom_scan]. rewrite (starts_no _ _ P1), (starts_no _ _ P2). apply IH. cbn [String.length] in L. lia.
  - destruct f as [|f]; [cbn in L; lia|]. rewrite step_open.
    apply (scan_inside b ("*/" ++ t)%string (S d) "" P).
    + intros g G. destruct g as [|g]; [cbn in G; lia|]. rewrite step_close. apply IH. change (S (S (String.length t)) < S g) in G. lia.
    + change (S (S (String.length (inner b ++ "*/" ++ t))) < S f) in L. lia.
  - destruct f as [|f]; [cbn in L; lia|]. rewrite step_open. apply IH. change (S (S (String.length t)) < S f) in L. lia.
Qed.
Lemma scan_parts : forall l t, proper l t -> ending t -> forall f, String.length (whole l ++ t) < f ->
  uncom_scan f 0 (whole l ++ t) = Some (left_over l).
Proof.
  induction l as [|p l IH]; intros t P E f L.
  - change (whole [] ++ t)%string with t in *. destruct E as [->|[u [-> [U M]]]].
    + destruct f; [cbn in L; lia|reflexivity].
    + destruct f as [|f]; [cbn in L; lia|]. cbn [uncom_scan append]. change (String "/" (String "*" u)) with ("/*" ++ u)%string.
      rewrite (mark_none _ M). rewrite starts_app. apply scan_unclosed; [exact U|].
      change (after 2 ("/*" ++ u)%string) with u. change (S (S (String.length u)) < S f) in L. lia.
  - assert (W : (whole (p :: l) ++ t = part_text p ++ (whole l ++ t))%string)
      by (unfold whole; cbn [map]; now rewrite concat_cons, app_assoc_s).
    assert (K : left_over (p :: l) = (kept p ++ left_over l)%string) by (unfold left_over; cbn [map]; apply concat_cons).
    rewrite W, K in *. clear W K. destruct p as [c|b|m]; cbn [proper part_text kept] in *.
    + destruct P as [P1 P2]. change (String c "" ++ whole l ++ t)%string with (String c (whole l ++ t)) in *.
      destruct f as [|f]; [cbn in L; lia|]. cbn [uncom_scan].
      rewrite mark_none; [|intros m S B; apply P1; destruct B as [r B]; rewrite B; now apply mark_opens].
      rewrite (starts_no _ _ P1). rewrite (IH t P2 E f) by (cbn [String.length] in L; lia). reflexivity.
    + destruct P as [P1 [P2 P3]]. rewrite !app_assoc_s in *. destruct f as [|f]; [cbn in L; lia|].
      cbn [uncom_scan append]. change (String "/" (String "*" (inner b ++ String "*" (String "/" (whole l ++ t))))) with ("/*" ++ inner b ++ "*/" ++ whole l ++ t)%string.
      rewrite (mark_none _ P1), starts_app.
      change (after 2 ("/*" ++ inner b ++ "*/" ++ whole l ++ t)%string) with (inner b ++ "*/" ++ whole l ++ t)%string.
      apply (scan_inside b ("*/" ++ whole l ++ t)%string 0 (left_over l) P2).
      * intros g G. destruct g as [|g]; [cbn in G; lia|]. rewrite step_close. apply (IH t P3 E). change (S (S (String.length (whole l ++ t))) < S g) in G. lia.
      * change (S (S (String.length (inner b ++ "*/" ++ whole l ++ t))) < S f) in L. lia.
    + destruct P as [P1 P2]. destruct f as [|f]; [lia|]. cbn [uncom_scan].
      pose proof (mark_stays m (whole l ++ t)%string P1) as M. pose proof (mark_len m P1) as ML.
      destruct (m ++ whole l ++ t)%string as [|c r] eqn:Q; [destruct m; [cbn in ML; lia|discriminate]|].
      rewrite M, <- Q, sub_app, after_app. rewrite <- Q, len_app in L.
      rewrite (IH t P2 E f) by lia. reflexivity.
Qed.
Lemma uncom_parts : forall l t, proper l t -> ending t -> uncom (whole l ++ t) = Some (left_over l).
Proof. intros l t P E. apply scan_parts; [exact P|exact E|lia]. Qed.

(* ------------------------------------------------------------------ every text *)
Lemma begins_dec : forall l s, begins l s \/ ~ begins l s.
Proof.
  intros l s. destruct (starts l s) eqn:E; [left; now apply starts_ok|right]. intro B. apply starts_ok in B. congruence.
Qed.
Lemma inside_or_not : forall n s, String.length s <= n ->
  (exists b t, s = (inner b ++ "*/" ++ t)%string /\ proper_inside b ("*/" ++ t)) \/ unclosed s.
Proof.
  induction n as [|n IH]; intros s L.
  - right. destruct s; [constructor|cbn in L; lia].
  - destruct s as [|c s]; [right; constructor|].
    destruct (begins_dec "*/" (String c s)) as [[r E]|N1].
    { left. exists done, r. split; [exact E|exact I]. }
    destruct (begins_dec "/*" (String c s)) as [[r E]|N2].
    + rewrite E in *. change (S (S (String.length r)) <= S n) in L.
      destruct (IH r) as [[b [t [-> P]]]|U]; [lia| |right; now constructor].
      rewrite !len_app in L. cbn [String.length] in L.
      destruct (IH t) as [[b2 [t2 [-> P2]]]|U]; [lia| |right; now apply unclosed_nested].
      left. exists (nested b b2), t2. split; [cbn [inner]; rewrite !app_assoc_s; reflexivity|]. split; assumption.
    + destruct (IH s) as [[b [t [-> P]]]|U]; [cbn in L; lia| |right; now constructor].
      left. exists (letter c b), t. split; [reflexivity|]. split; [exact N2|split; [exact N1|exact P]].
Qed.
Lemma every_text : forall n s, String.length s <= n -> exists l t, s = (whole l ++ t)%string /\ proper l t /\ ending t.
Proof.
  assert (W : forall p l t, (whole (p :: l) ++ t = part_text p ++ (whole l ++ t))%string)
    by (intros; unfold whole; cbn [map]; now rewrite concat_cons, app_assoc_s).
  induction n as [|n IH]; intros s L.
  - destruct s; [|cbn in L; lia]. exists [], "". split; [reflexivity|split; [exact I|now left]].
  - destruct s as [|c s]; [exists [], ""; split; [reflexivity|split; [exact I|now left]]|].
    destruct (mark (String c s)) as [k|] eqn:M.
    + destruct (mark_some _ _ M) as [m [r [S [E _]]]]. pose proof (mark_len m S) as ML.
      assert (LR : String.length r <= n). { rewrite E, len_app in L. lia. }
      destruct (IH r LR) as [l [t [Q [P T]]]]. exists (marked m :: l), t. rewrite W. split; [now rewrite E, Q|].
      split; [split; assumption|exact T].
    + assert (NM : forall m, stays m -> ~ begins m (String c s)).
      { intros m S [r B]. rewrite B, (mark_stays m r S) in M. discriminate. }
      destruct (begins_dec "/*" (String c s)) as [[r E]|N].
      * rewrite E in *. change (S (S (String.length r)) <= S n) in L. destruct (inside_or_not n r) as [[b [t [Q P]]]|U]; [lia| |].
        -- subst r. rewrite !len_app in L. cbn [String.length] in L. destruct (IH t) as [l [t2 [Q2 [P2 T2]]]]; [lia|]. subst t.
           exists (comment b :: l), t2. rewrite W. split; [cbn [part_text]; rewrite !app_assoc_s; reflexivity|].
           split; [|exact T2]. split; [exact NM|split; assumption].
        -- exists [], ("/*" ++ r)%string. split; [reflexivity|]. split; [exact I|]. right. exists r. split; [reflexivity|split; assumption].
      * destruct (IH s) as [l [t [Q [P T]]]]; [cbn in L; lia|]. exists (plain c :: l), t. rewrite W. split; [now rewrite Q|].
        split; [|exact T]. split; [rewrite <- Q; exact N|exact P].
Qed.
Lemma every : forall s, exists l t, s = (whole l ++ t)%string /\ proper l t /\ ending t.
Proof. intro s. exact (every_text (String.length s) s (le_n _)). Qed.
