(* Lujvo: the arguments, counting, and words that show the limits. *)
From Coq Require Import String Ascii List NArith ZArith Bool Arith Lia.
From Verif Require Import Base LujvoData LujvoModel LujvoSpec LujvoProofs LujvoProofs2 LujvoProofs3 LujvoProofs4 LujvoProofs5 LujvoProofs6 LujvoProofs7 LujvoProofs8 LujvoProofs9.
Import ListNotations.
Open Scope string_scope.
Open Scope list_scope.

(* ---- the pieces of a word ---- *)
Fixpoint cut (fuel : nat) (x : list ascii) : list (list ascii) :=
  match fuel with
  | O => []
  | S f =>
      if Nat.leb (List.length x) 5 then [x]
      else match front x with None => [x] | Some (len, hy) => firstn len x :: cut f (skipn (len + hy) x) end
  end.
Lemma cut_begins f t p rest : begins p t rest -> cut (S f) t = p :: cut f rest.
Proof. intros [L [hy [F [E1 E2]]]]. cbn [cut]. rewrite (proj2 (Nat.leb_gt _ _)) by lia. now rewrite F, E1, E2. Qed.
Lemma cut_joined l : parts l -> forall f, (List.length l <= f)%nat -> cut f (joined l) = map snd l.
Proof.
  induction 1 as [k p K F|k p l K F P IH]; intros f L; (destruct f as [|f]; [cbn in L; lia|]).
  - cbn [joined snd map cut]. pose proof (final_len k p K F). now rewrite (proj2 (Nat.leb_le _ _)) by lia.
  - rewrite (cut_begins f _ p (joined l)) by now apply begins_tail. cbn [map snd]. f_equal. apply IH. cbn in L. lia.
Qed.
Lemma cut_lujvo l t : parts l -> lujvo l t -> forall f, (List.length l <= f)%nat -> cut f t = map snd l.
Proof.
  intros P L f Lf. destruct l as [|[k p] l]; [inversion P|]. destruct (begins_first k p l t P L) as [P' [F B]].
  destruct f as [|f]; [cbn in Lf; lia|]. rewrite (cut_begins f t p (joined l) B). cbn [map snd]. f_equal. apply cut_joined; auto. cbn in Lf. lia.
Qed.
Lemma parts_short l : parts l -> (List.length l <= List.length (joined l))%nat.
Proof.
  induction 1 as [k p K F|k p l K F P IH].
  - cbn. pose proof (final_len k p K F). lia.
  - destruct l as [|y l]; [inversion P|]. rewrite joined_cons, !app_length. cbn [snd]. destruct (form_long k p F) as [? [? [? [? [-> _]]]]].
    cbn [List.length] in *. lia.
Qed.
Lemma lujvo_short l t : parts l -> lujvo l t -> (List.length l <= List.length t)%nat.
Proof.
  intros P L. destruct l as [|[k p] l]; [inversion P|]. destruct (begins_first k p l t P L) as [P' [F [_ [hy [_ [E1 E2]]]]]].
  pose proof (parts_short l P'). rewrite <- E2, skipn_length in H. destruct (form_long k p F) as [? [? [? [? [-> _]]]]].
  assert (L3 : List.length (firstn (List.length (x :: x0 :: x1 :: x2)) t) = List.length (x :: x0 :: x1 :: x2)) by now rewrite E1.
  rewrite firstn_length in L3. cbn [List.length] in *. lia.
Qed.
Lemma pieces l t : parts l -> lujvo l t -> cut (List.length t) t = map snd l.
Proof. intros P L. apply cut_lujvo; auto. now apply lujvo_short. Qed.

(* ---- words the checker gets wrong ---- *)
Ltac impossible := first [discriminate | match goal with K : ?b = true |- _ => vm_compute in K; discriminate K end].
Lemma bad_initial_accepted : is_valid_lujvo (text "blanrapi") = Ok true /\ forall l, parts l -> ~ lujvo l (text "blanrapi").
Proof.
  split; [vm_compute; reflexivity|]. intros l P L. pose proof (pieces l _ P L) as E. vm_compute in E.
  destruct l as [|[k1 p1] [|[k2 p2] [|]]]; try discriminate E. injection E as <- <-.
  apply parts_uncons in P. destruct P as [_ [_ P]]. inversion P as [? ? K F|? ? ? ? ? N]; subst; [|inversion N].
  inversion F as [| | | | | | ? ? ? ? ? ? V|? ? ? ? ? I]; subst; [vm_compute in V; discriminate V | vm_compute in I; discriminate I].
Qed.
Lemma extra_hyphen_accepted : is_valid_lujvo (text "baurbla") = Ok true /\ forall l, parts l -> ~ lujvo l (text "baurbla").
Proof.
  split; [vm_compute; reflexivity|]. intros l P L. pose proof (pieces l _ P L) as E. vm_compute in E.
  destruct l as [|[k1 p1] [|[k2 p2] [|]]]; try discriminate E. injection E as <- <-.
  apply parts_uncons in P. destruct P as [_ [F1 P]]. cbn [fst snd] in F1. inversion P as [? ? K F|? ? ? ? ? N]; subst; [|inversion N].
  inversion F; subst; try impossible; inversion F1; subst; try impossible; inversion L; subst;
    repeat match goal with K : _ \/ _ |- _ => destruct K end; try discriminate; try congruence; try (match goal with K : _ <> _ |- _ => now apply K end).
Qed.
Lemma lone_rafsi_accepted : is_valid_lujvo (text "bla") = Ok true /\ forall l, parts l -> ~ lujvo l (text "bla").
Proof.
  split; [vm_compute; reflexivity|]. intros l P L. destruct l as [|[k p] l]; [inversion P|].
  destruct (begins_first k p l _ P L) as [_ [_ [B _]]]. cbn in B. lia.
Qed.
Lemma unset_example : exists l, parts l /\ lujvo l (text "baurbau") /\ is_valid_lujvo (text "baurbau") = UB UB_uninit.
Proof.
  assert (F : form CVV (text "bau")) by (apply kind_of_form; vm_compute; reflexivity).
  exists [(CVV, text "bau"); (CVV, text "bau")]. split; [|split].
  - apply ps_more; auto. now apply ps_last.
  - apply (l_cvv CVV (text "bau") (CVV, text "bau") []); auto. left. discriminate.
  - vm_compute. reflexivity.
Qed.
Lemma checker_total t : t <> [] -> (exists b, is_valid_lujvo t = Ok b) \/ is_valid_lujvo t = UB UB_uninit.
Proof. intros N. unfold is_valid_lujvo. apply ivl_fine. destruct t; [contradiction|]. cbn [List.length]. lia. Qed.
Lemma checker_iff t : smalls t -> (3 < List.length t)%nat -> is_valid_lujvo t = Ok true <-> exists l, parts_lax l /\ lujvo_lax l t.
Proof. intros S L. split; [now apply valid_sound|]. intros [l [P J]]. now apply valid_complete with l. Qed.
(* what is accepted beyond the rules has one of two faults *)
Lemma lax_strict l t : parts_lax l -> lujvo_lax l t ->
  (parts l /\ lujvo l t)
  \/ (exists pre a b v c u, t = pre ++ [a; b; v; c; u] /\ permissible a b = true /\ initial_pair a b = false)
  \/ (exists k p q h, (k = CVV \/ k = CVhV) /\ form k p /\ form CCV q /\ (h = "r" \/ h = "n")%char /\ t = p ++ [h] ++ q).
Proof.
  intros P J.
  assert (D : forall l, parts_lax l -> parts l \/ exists pre a b v c u, joined l = pre ++ [a; b; v; c; u] /\ permissible a b = true /\ initial_pair a b = false).
  { clear. induction 1 as [k p Hk F|a b v c u Hp Hv Hc Hu|k p l Hk F P IH].
    - left. now constructor.
    - destruct (initial_pair a b) eqn:I; [left; constructor; [reflexivity | now constructor]|]. right. exists [], a, b, v, c, u. auto.
    - destruct IH as [IH|[pre [a [b [v [c [u [E [H1 H2]]]]]]]]]; [left; now constructor|]. right.
      destruct l as [|y l]; [inversion P|]. exists (p ++ y_if (y_between (k, p) y) ++ pre), a, b, v, c, u.
      rewrite joined_cons, E. cbn [snd]. rewrite <- !app_assoc. auto. }
  assert (App : forall m pre a b v c u j, j = pre ++ [a; b; v; c; u] -> permissible a b = true -> initial_pair a b = false ->
     exists pre' a b v c u, m ++ j = pre' ++ [a; b; v; c; u] /\ permissible a b = true /\ initial_pair a b = false).
  { intros m pre a b v c u j -> H1 H2. exists (m ++ pre), a, b, v, c, u. rewrite <- app_assoc. auto. }
  destruct J as [k p y l Hk|p y l Hy|p y l Hy Hn|k p q Hk|k p y l Hk Hyl].
  - destruct (D _ P) as [P'|K]; [left; split; auto; now constructor | now right; left].
  - destruct (lax_uncons _ _ _ P) as [M [F P']]. destruct (D _ P') as [Ps|[pre [a [b [v [c [u [E [H1 H2]]]]]]]]].
    + left. split; [now constructor|]. constructor. destruct Hy as [Hy|Hy]; auto. right. now apply own_strict.
    + right. left. rewrite app_assoc. now apply (App _ pre a b v c u).
  - destruct (lax_uncons _ _ _ P) as [M [F P']]. destruct (D _ P') as [Ps|[pre [a [b [v [c [u [E [H1 H2]]]]]]]]].
    + left. split; [now constructor|]. constructor; auto. intros K. apply Hn. now apply own_strict.
    + right. left. now apply (App _ pre a b v c u).
  - destruct (D _ P) as [P'|K]; [left; split; auto; now constructor|]. right. left.
    replace (p ++ q) with (joined [(k, p); (CCV, q)]); auto. cbn [joined snd]. unfold y_between. cbn [fst]. destruct Hk; subst k; reflexivity.
  - destruct (lax_uncons _ _ _ P) as [M [F P']]. destruct l as [|z l].
    + destruct Hyl as [Hy|Hyl]; [|congruence]. destruct y as [k' q]. cbn [fst] in Hy. subst k'.
      right. right. exists k, p, q, (hyphen_rn (CCV, q)). inversion P' as [? ? ? Fq| |? ? ? ? ? N]; subst; [|inversion N].
      repeat split; auto. unfold hyphen_rn. destruct (Ascii.eqb _ _); auto.
    + destruct (D _ P') as [Ps|[pre [a [b [v [c [u [E [H1 H2]]]]]]]]].
      * left. split; [now constructor|]. constructor; auto. right. discriminate.
      * right. left. rewrite app_assoc. now apply (App _ pre a b v c u).
Qed.

(* ---- counting ---- *)
Lemma size_N l : N.of_nat (size l) = fold_right N.mul 1%N (map N.of_nat l).
Proof. induction l as [|n l IH]; [reflexivity|]. cbn [size map fold_right]. rewrite Nat2N.inj_mul, IH. reflexivity. Qed.
Lemma max_N : N.of_nat MAX_LUJVO_COUNT = 65536%N.
Proof. Transparent MAX_LUJVO_COUNT. unfold MAX_LUJVO_COUNT. apply N2Nat.id. Qed.
Opaque MAX_LUJVO_COUNT.
Definition sixteen : list cword := repeat (text "gismu") 17.
Definition plain_options : options := Options false false false true true.
Lemma cap_exact : exists cs gs all, makelujvo plain_options sixteen = Ok (cs, true) /\ Forall2 typed sixteen gs /\
  (forall rs, In rs all <-> choices false false gs rs) /\ Forall2 made_of all cs.
Proof.
  assert (exists r, all_rafsi plain_options sixteen = Ok r /\ existsb (fun l => match l with [] => true | _ => false end) r = false
     /\ List.length r = 17%nat /\ fold_right N.mul 1%N (map N.of_nat (map (@List.length _) r)) = 65536%N) as [r [E [Ex [Lr S]]]].
  { eexists. split; [vm_compute; reflexivity|]. split; [reflexivity|]. split; reflexivity. }
  assert (NE : Forall (fun l : list cword => l <> []) r).
  { rewrite Forall_forall. intros l I ->. rewrite <- not_true_iff_false in Ex. apply Ex, existsb_exists. exists []. auto. }
  destruct (enumerated plain_options sixteen r E ltac:(cbn; lia) NE) as [cs [gs [all [Ee [T [Ig [ND [C [F Ea]]]]]]]]].
  assert (La : List.length all = MAX_LUJVO_COUNT).
  { apply Nat2N.inj. rewrite Ea, product_length, size_N, S. symmetry. apply max_N. }
  exists cs, gs, all. split; [|split; [exact T|split; [exact C|]]].
  - unfold makelujvo. rewrite E. cbn [obind]. rewrite Ex, Lr. cbn [Nat.ltb Nat.leb]. rewrite Lr in Ee. rewrite Ee, La, Nat.leb_refl. reflexivity.
  - rewrite <- La, firstn_all in F. exact F.
Qed.

(* ---- the command line ---- *)
Definition switch (a : cword) : bool :=
  is_opt a "-a" || is_opt a "-l" || is_opt a "-b" || is_opt a "-S" || is_opt a "-A" || is_opt a "-R" || is_opt a "-q".
Definition dashed (a : cword) : bool := match a with c :: _ => Ascii.eqb c "-" | [] => false end.
Lemma is_opt_dashed a s : is_opt a s = true -> ceq (at_ (w s) 0) "-" = true -> dashed a = true.
Proof. unfold is_opt. destruct (list_eq_dec ascii_dec a (w s)) as [->|]; [|discriminate]. intros _ H. unfold dashed. destruct (w s); [discriminate H | exact H]. Qed.
Lemma is_opt_iff a s : is_opt a s = true <-> a = w s.
Proof. unfold is_opt. destruct (list_eq_dec ascii_dec a (w s)); split; auto; discriminate. Qed.
Lemma dashed_at a : ceq (at_ a 0) "-" = dashed a.
Proof. destruct a; reflexivity. Qed.
Lemma has_cons s a l : In (text s) (a :: l) <-> is_opt a s = true \/ In (text s) l.
Proof. rewrite is_opt_iff. cbn [In]. unfold w, text. tauto. Qed.
Ltac opt_case IH H a Dis Sw s K :=
  cbn [orb] in H; apply IH in H; destruct H as [H1 [H2 [H3 [H4 [H5 [H6 [H7 H8]]]]]]];
  cbn [showall uselong allowbrod showscore showannotations] in H4, H5, H6, H7, H8;
  let Da := fresh "Da" in let Sa := fresh "Sa" in
  destruct (Sw s K ltac:(cbn [In]; auto 10)) as [Sa Da];
  cbn [filter]; rewrite Da; cbn [negb];
  split; [exact H1|]; split; [exact H2|]; split; [constructor; [intros _; exact Sa | exact H3]|];
  rewrite !has_cons, H4, H5, H6, H7, H8; rewrite ?K;
  repeat match goal with |- context [is_opt a ?t] => rewrite (Dis s t K ltac:(discriminate)) end; intuition congruence.
Lemma args_spec : forall l o ws n o' ws', args l o ws n = Ok (o', ws') ->
  ws' = ws ++ filter (fun a => negb (dashed a)) l /\
  (n + List.length (filter (fun a => negb (dashed a)) l) < 50 \/ filter (fun a => negb (dashed a)) l = [])%nat /\
  Forall (fun a => dashed a = true -> switch a = true) l /\
  (showall o' = true <-> showall o = true \/ In (text "-a") l) /\
  (uselong o' = true <-> uselong o = true \/ In (text "-l") l) /\
  (allowbrod o' = true <-> allowbrod o = true \/ In (text "-b") l) /\
  (showscore o' = true <-> showscore o = true /\ ~ In (text "-S") l) /\
  (showannotations o' = true <-> showannotations o = true /\ ~ In (text "-A") l).
Proof.
  induction l as [|a l IH]; intros o ws n o' ws' H.
  - cbn [args] in H. injection H as <- <-. cbn [filter In]. rewrite app_nil_r. repeat split; auto; tauto.
  - cbn [args] in H. rewrite dashed_at in H.
    destruct (is_opt a "-v") eqn:Ov; [discriminate H|].
    assert (Dis : forall s t, is_opt a s = true -> text s <> text t -> is_opt a t = false).
    { intros s t K N. apply is_opt_iff in K. apply not_true_iff_false. rewrite is_opt_iff. intros E. apply N. unfold w in *. unfold text. congruence. }
    assert (Sw : forall s, is_opt a s = true -> In s ["-a"; "-l"; "-b"; "-S"; "-A"; "-R"; "-q"] -> switch a = true /\ dashed a = true).
    { intros s K I. split; [|apply (is_opt_dashed a s K); repeat destruct I as [<-|I]; try reflexivity; destruct I].
      unfold switch. repeat destruct I as [<-|I]; try (rewrite K, ?orb_true_r; reflexivity). destruct I. }
    destruct (is_opt a "-a") eqn:Ea; [opt_case IH H a Dis Sw "-a" Ea|].
    destruct (is_opt a "-l") eqn:El; [opt_case IH H a Dis Sw "-l" El|].
    destruct (is_opt a "-b") eqn:Eb; [opt_case IH H a Dis Sw "-b" Eb|].
    destruct (is_opt a "-S") eqn:ES; [opt_case IH H a Dis Sw "-S" ES|].
    destruct (is_opt a "-A") eqn:EA; [opt_case IH H a Dis Sw "-A" EA|].
    destruct (is_opt a "-R") eqn:ER; [opt_case IH H a Dis Sw "-R" ER|].
    destruct (is_opt a "-q") eqn:Eq; [opt_case IH H a Dis Sw "-q" Eq|].
    cbn [orb] in H.
    destruct (dashed a) eqn:Da; [discriminate H|]. destruct (Nat.leb MAXT (S n)) eqn:Em; [discriminate H|].
    apply Nat.leb_gt in Em. apply IH in H; destruct H as [H1 [H2 [H3 [H4 [H5 [H6 [H7 H8]]]]]]].
    cbn [filter]. rewrite Da. cbn [negb].
    split; [rewrite H1, <- app_assoc; reflexivity|]. split; [left; cbn [List.length]; unfold MAXT in Em; destruct H2 as [H2|H2]; [lia | rewrite H2; cbn; lia]|].
    split; [constructor; [congruence | exact H3]|].
    rewrite !has_cons, Ea, El, Eb, ES, EA, H4, H5, H6, H7, H8. intuition congruence.
Qed.

(* ---- for the statements ---- *)
Lemma made_in o words cs hit c : makelujvo o words = Ok (cs, hit) -> In c cs ->
  exists gs rs, Forall2 typed words gs /\ choices (uselong o) (allowbrod o) gs rs /\ made_of rs c.
Proof.
  intros H I. destruct (made o words cs hit H) as [_ [gs [all [T [Ig [_ [C [F _]]]]]]]]. exists gs.
  assert (exists rs, In rs all /\ made_of rs c) as [rs [Ir M]].
  { assert (K : forall rs, In rs (firstn MAX_LUJVO_COUNT all) -> In rs all).
    { intros rs K. rewrite <- (firstn_skipn MAX_LUJVO_COUNT). apply in_or_app. auto. }
    clear -F I K. revert K I. induction F as [|x y L cs Hx F IH]; intros K I; [destruct I|]. destruct I as [->|I].
    - exists x. split; auto. apply K. now left.
    - apply IH; auto. intros rs Hr. apply K. now right. }
  exists rs. split; auto. split; auto. now apply C.
Qed.
Lemma choices_length long brod gs rs : choices long brod gs rs -> List.length gs = List.length rs.
Proof. induction 1; cbn; auto. Qed.
Lemma made_valid o words cs hit c : makelujvo o words = Ok (cs, hit) -> In c cs ->
  exists l, parts l /\ lujvo l (cword_of c) /\ List.length l = List.length words /\ (2 <= List.length l)%nat.
Proof.
  intros H I. destruct (made_in o words cs hit c H I) as [gs [rs [T [C [l [E [P [L _]]]]]]]]. destruct (made o words cs hit H) as [L2 _].
  assert (Ll : List.length l = List.length words).
  { rewrite <- (map_length snd l), E, <- (choices_length _ _ _ _ C). clear -T. induction T; cbn; auto. }
  exists l. split; auto. split; auto. split; auto. now rewrite Ll.
Qed.
Lemma made_score o words cs hit c : makelujvo o words = Ok (cs, hit) -> In c cs ->
  exists l, parts l /\ lujvo l (cword_of c) /\ score c = published_score l (cword_of c).
Proof. intros H I. destruct (made_in o words cs hit c H I) as [gs [rs [T [C [l [E [P [L [S _]]]]]]]]]. eauto. Qed.
Lemma candidate_mark rs c : candidate rs = Ok c -> mark c = "!"%char \/ mark c = " "%char.
Proof.
  unfold candidate. destruct (glues rs) as [g| | | |]; try discriminate. cbn [obind]. destruct (tally_up rs g _) as [s| | | |]; try discriminate.
  cbn [obind]. cbv zeta. intros H. injection H as <-. cbn [mark]. destruct (existsb _ _); auto.
Qed.
Lemma enumerate_mark r : forall room c cs hit, enumerate room r c = Ok (cs, hit) -> forall x, In x cs -> mark x = "!"%char \/ mark x = " "%char.
Proof.
  induction room as [|room IH]; intros c cs hit H x I; [discriminate H|]. cbn [enumerate] in H.
  destruct (candidate (choose r c)) as [y| | | |] eqn:Ey; try discriminate H. cbn [obind] in H. apply candidate_mark in Ey.
  destruct room as [|room]; [injection H as <- <-; destruct I as [<-|[]]; auto|].
  destruct (bump _ c) as [c'|].
  - destruct (enumerate (S room) r c') as [[l h]| | | |] eqn:E; try discriminate H. cbn [obind] in H. injection H as <- <-. destruct I as [<-|I]; auto. eapply IH; eauto.
  - injection H as <- <-. destruct I as [<-|[]]; auto.
Qed.
Lemma made_mark o words cs hit c : makelujvo o words = Ok (cs, hit) -> In c cs -> mark c = "!"%char \/ mark c = " "%char.
Proof.
  unfold makelujvo. destruct (all_rafsi o words) as [r| | | |]; try discriminate. cbn [obind].
  destruct (existsb _ r); try discriminate. destruct (Nat.ltb _ 2); try discriminate. intros H I. eapply enumerate_mark; eassumption.
Qed.
Lemma mark_lost : exists o sorted c, In c sorted /\ mark c = "!"%char /\ Sorted.StronglySorted by_score sorted /\
  forall y, In y (shown o sorted) -> cword_of y = cword_of c -> mark y = "*"%char.
Proof.
  exists plain_options, [Cand (text "a") 3 " "; Cand (text "b") 3 "!"], (Cand (text "b") 3 "!").
  split; [cbn; auto|]. split; [reflexivity|]. split.
  - repeat constructor. cbn. unfold by_score. cbn. lia.
  - intros y I E. cbv in I. destruct I as [<-|[<-|[]]]; [discriminate E | reflexivity].
Qed.
Lemma checker_accepts l t : parts l -> lujvo l t ->
  is_valid_lujvo t = Ok true
  \/ (exists k p y, (k = CVV \/ k = CVhV) /\ l = [(k, p); y] /\ fst y <> CCV) /\ is_valid_lujvo t = UB UB_uninit.
Proof.
  intros P L. destruct (strict_lax l t P L) as [[k [p [[k' q] [Hk [-> N]]]]]|X].
  - right. split; [eauto 8|]. inversion L as [? ? ? ? Hk'| | |? ? ? Hk'|? ? ? ? Hk' Hy]; subst.
    1: { destruct Hk as [-> | ->]; destruct Hk' as [K | [K | K]]; discriminate K. }
    1-2: destruct Hk as [K|K]; discriminate K.
    + cbn in N. congruence.
    + cbn [joined snd]. apply (unset k p k' q); auto.
  - left. apply valid_complete with l; auto. now apply parts_parts_lax.
Qed.
Lemma lujvo_exists l : parts l -> (2 <= List.length l)%nat -> exists t, lujvo l t.
Proof. intros P L. destruct (candidate_spec l P L) as [c [_ [J _]]]. eauto. Qed.
Lemma own_example : exists l, parts l /\ lujvo l (text "gi'urzbasu").
Proof.
  exists [(CVhV, text "gi'u"); (CCVCV, text "zbasu")].
  assert (F1 : form CVhV (text "gi'u")) by (apply kind_of_form; vm_compute; reflexivity).
  assert (F2 : form CCVCV (text "zbasu")) by (apply kind_of_form; vm_compute; reflexivity).
  split; [apply ps_more; auto; now apply ps_last|]. apply (l_cvv CVhV (text "gi'u") (CCVCV, text "zbasu") []); auto. left. discriminate.
Qed.
