(* Taking lujvo apart. *)
From Coq Require Import String Ascii List NArith ZArith Bool Arith Lia.
From Verif Require Import Base LujvoData LujvoModel LujvoSpec LujvoProofs LujvoProofs2 LujvoProofs3 LujvoProofs4 LujvoProofs5 LujvoProofs6 LujvoProofs7 LujvoProofs8.
From Verif Require DictSpec DictModel DictProofs.
Import ListNotations.
Open Scope list_scope.

(* ---- letters ---- *)
Lemma cons_split c : cons c = true -> IC c = true /\ IV c = false /\ ceq c "y" = false /\ ceq c "'" = false.
Proof.
  intros H. pose proof (by_chars (fun c => implb (cons c) (IC c && negb (IV c) && negb (ceq c "y") && negb (ceq c "'"))) ltac:(vm_compute; reflexivity) c) as K.
  cbv beta in K. rewrite H in K. cbn [implb] in K. rewrite !andb_true_iff, !negb_true_iff in K. tauto.
Qed.
Lemma vow_split c : vow c = true -> IC c = false /\ IV c = true /\ ceq c "y" = false /\ ceq c "'" = false /\ ceq c "r" = false.
Proof.
  intros H. pose proof (by_chars (fun c => implb (vow c) (negb (IC c) && IV c && negb (ceq c "y") && negb (ceq c "'") && negb (ceq c "r"))) ltac:(vm_compute; reflexivity) c) as K.
  cbv beta in K. rewrite H in K. cbn [implb] in K. rewrite !andb_true_iff, !negb_true_iff in K. tauto.
Qed.
Lemma initial_split a b : initial_pair a b = true -> ceq a "r" = false /\ ceq a "n" = false.
Proof.
  intros H. destruct (initial_facts a b H) as [Ha [Hb _]].
  pose proof (by_pairs (fun a b => implb (initial_pair a b) (negb (ceq a "r") && negb (ceq a "n"))) ltac:(vm_compute; reflexivity) a b Ha Hb) as K.
  cbv beta in K. rewrite H in K. cbn [implb] in K. rewrite !andb_true_iff, !negb_true_iff in K. tauto.
Qed.
Lemma ic_y : IC "y" = false /\ IC "'" = false /\ IV "'" = false /\ IC "r" = true /\ IC "n" = true.
Proof. vm_compute. auto. Qed.
Global Opaque IC IV r2g.

(* what a list of parts begins with *)
Definition starts (a b c : ascii) : Prop :=
  cons a = true /\ ((vow b = true /\ ceq c "y" = false) \/ (initial_pair a b = true /\ cons b = true /\ vow c = true)).
Lemma parts_starts l : parts l -> exists a b c r, joined l = a :: b :: c :: r /\ starts a b c /\ ceq b "y" = false /\ ceq c "y" = false
  /\ exists k p l', l = (k, p) :: l' /\ letter p 0 = a.
Proof.
  intros P. assert (exists k p l', l = (k, p) :: l' /\ form k p) as [k [p [l' [-> F]]]].
  { inversion P; subst; eauto 6. }
  destruct (joined_head k p l') as [r E].
  assert (exists a b c r', p = a :: b :: c :: r' /\ starts a b c /\ ceq b "y" = false /\ ceq c "y" = false) as [a [b [c [r' [-> [S [Hb Hc]]]]]]].
  { destruct F; do 4 eexists; (split; [reflexivity|]); unfold starts;
    repeat match goal with
    | K : permissible _ _ = true |- _ => apply permissible_facts in K; destruct K
    | K : initial_pair ?a ?b = true |- _ => lazymatch goal with L : cons b = true |- _ => fail | _ => destruct (initial_facts a b K) as [? [? ?]] end
    end;
    repeat match goal with
    | K : cons ?c = true |- _ => lazymatch goal with L : IC c = true |- _ => fail | _ => destruct (cons_split c K) as [? [? [? ?]]] end
    | K : vow ?c = true |- _ => lazymatch goal with L : IV c = true |- _ => fail | _ => destruct (vow_split c K) as [? [? [? [? ?]]]] end
    end; auto 8. }
  exists a, b, c, (r' ++ r). split; [rewrite E; reflexivity|]. repeat split; auto; try apply S. exists k, (a :: b :: c :: r'), l'. auto.
Qed.

Definition begins (p t rest : list ascii) : Prop :=
  (6 <= List.length t)%nat /\ exists hy, front t = Some (List.length p, hy) /\ firstn (List.length p) t = p /\ skipn (List.length p + hy) t = rest.
Ltac known :=
  repeat match goal with
  | K : permissible _ _ = true |- _ => apply permissible_facts in K; destruct K
  | K : initial_pair ?a ?b = true |- _ => lazymatch goal with L : ceq a "n" = false |- _ => fail | _ => destruct (initial_facts a b K) as [? [? ?]]; destruct (initial_split a b K) end
  end;
  repeat match goal with
  | K : cons ?c = true |- _ => lazymatch goal with L : IC c = true |- _ => fail | _ => destruct (cons_split c K) as [? [? [? ?]]] end
  | K : vow ?c = true |- _ => lazymatch goal with L : IV c = true |- _ => fail | _ => destruct (vow_split c K) as [? [? [? [? ?]]]] end
  end.
Ltac go_front :=
  repeat (match goal with
  | K : IC ?c = _ |- context [IC ?c] => rewrite K
  | K : IV ?c = _ |- context [IV ?c] => rewrite K
  | K : ceq ?c ?d = _ |- context [ceq ?c ?d] => rewrite K
  end; cbn [andb orb negb]).
Definition fits (k : kind) (h : list ascii) (a : ascii) : Prop :=
  match k with
  | CVC => h = [] \/ h = ["y"%char]
  | CCV => h = []
  | CVV | CVhV => h = [] \/ h = [if Ascii.eqb a "r" then "n"%char else "r"%char]
  | CVCC | CCVC => h = ["y"%char]
  | _ => False
  end.
Lemma front_of k p h a b c r : form k p -> fits k h a -> starts a b c -> ceq b "y" = false -> ceq c "y" = false ->
  begins p (p ++ h ++ a :: b :: c :: r) (a :: b :: c :: r).
Proof.
  intros F H [Ha S] Hb Hc. pose proof ic_y as [Y1 [Y2 [Y3 [Y4 Y5]]]].
  assert (Q1 : ceq "y" "y" = true) by reflexivity. assert (Q2 : ceq "'" "'" = true) by reflexivity.
  assert (Q3 : ceq "r" "r" = true) by reflexivity. assert (Q4 : ceq "n" "n" = true) by reflexivity.
  assert (Q5 : ceq "n" "r" = false) by reflexivity. assert (Q6 : ceq "r" "n" = false) by reflexivity.
  assert (Q7 : ceq "r" "y" = false) by reflexivity. assert (Q8 : ceq "n" "y" = false) by reflexivity.
  assert (Q9 : ceq "'" "y" = false) by reflexivity.
  assert (Rn : h = [] -> (ceq a "r" && IC b) || (ceq a "n" && ceq b "r") = false).
  { intros _. destruct S as [[Vb _]|[Ip _]]; known.
    - repeat match goal with K : IC b = _ |- _ => rewrite K; clear K | K : ceq b "r" = _ |- _ => rewrite K; clear K end. now rewrite !andb_false_r.
    - repeat match goal with K : ceq a _ = _ |- _ => rewrite K end. reflexivity. }
  unfold begins.
  destruct F; cbn [fits] in H; try contradiction; repeat match type of H with _ \/ _ => destruct H as [H|H] end;
    first [specialize (Rn H) | clear Rn]; subst h; cbn [app List.length];
    (split; [lia|]); known;
    try (destruct (Ascii.eqb a "r") eqn:Er; [change (ceq a "r" = true) in Er | change (ceq a "r" = false) in Er]);
    unfold front; cbn [at_ nth]; try rewrite Rn; go_front; rewrite ?andb_false_r; go_front;
    (eexists; split; [reflexivity|]; split; reflexivity).
Qed.
Lemma begins_tail k p l : medial k = true -> form k p -> parts l -> begins p (joined ((k, p) :: l)) (joined l).
Proof.
  intros M F P. destruct (parts_starts l P) as [a [b [c [r [E [S [Hb [Hc [k' [p' [l' [-> La]]]]]]]]]]]].
  rewrite joined_cons. cbn [snd]. rewrite E. apply front_of with k; auto.
  unfold y_between. cbn [fst]. destruct k; try discriminate M; cbn [y_if fits]; auto.
  destruct (negb _ || _); cbn [y_if]; auto.
Qed.
Lemma begins_first k p l t : parts ((k, p) :: l) -> lujvo ((k, p) :: l) t -> parts l /\ form k p /\ begins p t (joined l).
Proof.
  intros P L. assert (P' : medial k = true /\ form k p /\ parts l).
  { inversion L; subst; now apply parts_uncons in P. }
  destruct P' as [M [F P']]. split; [exact P'|]. split; [exact F|].
  inversion L; subst.
  - now apply begins_tail.
  - destruct (parts_starts _ P') as [a [b [c [r [E [S [Hb [Hc _]]]]]]]]. rewrite E. apply (front_of CVC p ["y"%char]); cbn; auto.
  - destruct (parts_starts _ P') as [a [b [c [r [E [S [Hb [Hc _]]]]]]]]. rewrite E. apply (front_of CVC p []); cbn; auto.
  - destruct (parts_starts _ P') as [a [b [c [r [E [S [Hb [Hc _]]]]]]]]. cbn [joined snd] in E |- *. subst q.
    apply (front_of k p []); auto. match goal with K : k = CVV \/ _ |- _ => destruct K end; subst k; cbn; auto.
  - destruct (parts_starts _ P') as [a [b [c [r [E [S [Hb [Hc [k' [p' [l' [El La]]]]]]]]]]]]. injection El as -> <-.
    rewrite E. apply (front_of k p [hyphen_rn (k', p')]); auto. unfold hyphen_rn. cbn [snd]. rewrite La. match goal with K : k = CVV \/ _ |- _ => destruct K end; subst k; cbn; auto.
Qed.
Lemma final_len k p : final k = true -> form k p -> (3 <= List.length p <= 5)%nat.
Proof. intros H F. destruct F; cbn; lia. Qed.

(* ---- the analysis ---- *)
Lemma r2g_sorted : strings_sorted (map fst r2g) = true.
Proof. vm_compute. reflexivity. Qed.
Lemma find_key (l : list (string * string)) s g : NoDup (map fst l) -> In (s, g) l ->
  find (fun e => if list_eq_dec ascii_dec (w (fst e)) (text s) then true else false) l = Some (s, g).
Proof.
  induction l as [|[s' g'] l IH]; intros N I; [destruct I|]. cbn [map fst] in N. inversion N; subst. cbn [find fst].
  destruct I as [E|I].
  - injection E as -> ->. destruct (list_eq_dec _ _ _) as [_|C]; [reflexivity | now destruct C].
  - destruct (list_eq_dec _ _ _) as [E|_]; [|auto]. apply w_inj in E. subst s'. destruct H1. now apply (in_map fst) in I.
Qed.
Lemma component s g : In (s, g) r2g -> lookup_component (text s) = g.
Proof.
  intros I. unfold lookup_component. rewrite (find_key r2g s g); auto. apply sorted_nodup, strings_sorted_spec, r2g_sorted.
Qed.
Lemma split_step fuel t p rest : begins p t rest ->
  split_lujvo (S fuel) t = (do r <- split_lujvo fuel rest; Ok (option_map (List.cons (lookup_component p)) r)).
Proof.
  intros [L [hy [F [E1 E2]]]]. cbn [split_lujvo]. destruct t as [|x0 [|x1 [|x2 [|x3 [|x4 [|x5 t]]]]]]; cbn [List.length] in L; try lia.
  cbn [List.length]. rewrite F. unfold strip. rewrite E1, E2. reflexivity.
Qed.
Lemma split_tail l : parts l -> forall gs, Forall2 stands_for (map snd l) gs -> forall fuel, (List.length (joined l) < fuel)%nat ->
  split_lujvo fuel (joined l) = Ok (Some gs).
Proof.
  induction 1 as [k p K F|k p l K F P IH]; intros gs S fuel L; (destruct fuel as [|fuel]; [lia|]).
  - cbn [map snd] in S. inversion S as [|? g ? ? S1 S2]; subst. inversion S2; subst. cbn [joined snd].
    assert (Hd : List.length p = 3%nat \/ List.length p = 4%nat \/ List.length p = 5%nat) by (pose proof (final_len k p K F); lia).
    assert (E : forall n, List.length p = n -> n <> 5%nat -> lookup_component p = g).
    { intros n En Hn. destruct S1 as [[S1 _]|[_ [s [I ->]]]]; [lia | now apply component]. }
    cbn [split_lujvo]. destruct Hd as [Hd|[Hd|Hd]]; rewrite Hd; [now rewrite (E _ Hd) by lia | now rewrite (E _ Hd) by lia |].
    destruct S1 as [[_ ->]|[S1 _]]; [|contradiction]. unfold text. now rewrite string_of_list_ascii_of_string.
  - cbn [map snd] in S. inversion S as [|? g ? gs' S1 S2]; subst.
    pose proof (begins_tail k p l K F P) as B.
    rewrite (split_step fuel _ p (joined l) B), (IH gs' S2); [cbn [obind option_map]|].
    + destruct S1 as [[S1 ->]|[_ [s [I ->]]]]; [|now rewrite (component s g I)].
      exfalso. destruct F; cbn in S1; discriminate.
    + destruct (parts_starts l P) as [a [b [c [r [_ [_ [_ [_ [k' [p' [l' [-> _]]]]]]]]]]]].
      rewrite joined_cons, !app_length in L. cbn [snd] in L. destruct (form_long k p F) as [? [? [? [? [-> _]]]]]. cbn [List.length] in L. lia.
Qed.
Lemma split_lujvo_spec l t gs : parts l -> lujvo l t -> Forall2 stands_for (map snd l) gs ->
  forall fuel, (List.length t < fuel)%nat -> split_lujvo fuel t = Ok (Some gs).
Proof.
  intros P L S fuel Lf. destruct l as [|[k p] l]; [inversion P|].
  destruct (begins_first k p l t P L) as [P' [F B]]. destruct fuel as [|fuel]; [lia|].
  rewrite (split_step fuel t p (joined l) B). cbn [map snd] in S. inversion S as [|? g ? gs' S1 S2]; subst.
  assert (NK : medial k = true) by (inversion L; subst; now apply parts_uncons in P).
  rewrite (split_tail l P' gs' S2); [cbn [obind option_map]|].
  - destruct S1 as [[S1 ->]|[_ [s [I ->]]]]; [|now rewrite (component s g I)]. exfalso. destruct F; try discriminate NK; cbn in S1; discriminate.
  - destruct B as [L6 [hy [_ [_ <-]]]]. rewrite skipn_length. destruct (form_long k p F) as [? [? [? [? [-> _]]]]]. cbn [List.length] in *. lia.
Qed.
(* the word passes the first test *)
Lemma compound_app a b : compound_from b = true -> compound_from (a ++ b) = true.
Proof. induction a as [|x a IH]; cbn [app compound_from]; auto. intros H. rewrite IH by auto. apply orb_true_r. Qed.
Lemma compound_here a b r : IC a = true -> IC b = true -> compound_from (a :: b :: r) = true.
Proof. intros Ha Hb. cbn [compound_from at_ nth]. rewrite Ha, Hb. reflexivity. Qed.
Lemma compound_y a b r : IC a = true -> IC b = true -> compound_from (a :: "y"%char :: b :: r) = true.
Proof. intros Ha Hb. cbn [compound_from at_ nth]. rewrite Ha, Hb. change (ceq "y" "y") with true. cbn [andb orb]. now rewrite orb_true_r. Qed.
Lemma lujvo_compound l t : parts l -> lujvo l t -> compound_from t = true.
Proof.
  pose proof ic_y as [_ [_ [_ [Y4 Y5]]]].
  intros P L. destruct L as [k p y l Hk|p y l H|p y l H1 H2|k p q Hk|k p y l Hk H].
  - apply parts_uncons in P. destruct P as [M [F P]]. cbn [fst snd] in M, F.
    destruct (joined_head k p (y :: l)) as [r ->].
    destruct F; destruct Hk as [Hk | [Hk | Hk]]; try discriminate Hk; known; cbn [app].
    + now apply compound_here.
    + apply (compound_app [a; v] (b :: c :: r)). now apply compound_here.
    + now apply compound_here.
  - apply parts_uncons in P. destruct P as [M [F P]]. cbn [fst snd] in M, F. inversion F; subst. known.
    destruct (parts_starts _ P) as [x [z [z' [r [-> [[Hx _] _]]]]]]. known. apply (compound_app [a; v]). now apply compound_y.
  - apply parts_uncons in P. destruct P as [M [F P]]. cbn [fst snd] in M, F. inversion F; subst. known.
    destruct (parts_starts _ P) as [x [z [z' [r [-> [[Hx _] _]]]]]]. known. apply (compound_app [a; v]). now apply compound_here.
  - apply parts_uncons in P. destruct P as [M [F P]]. inversion P as [? ? ? Fq|? ? ? ? ? Pn]; subst; [|inversion Pn].
    inversion Fq; subst. known. apply compound_app. now apply compound_here.
  - apply parts_uncons in P. destruct P as [M [F P]].
    destruct (parts_starts _ P) as [x [z [z' [r [-> [[Hx _] _]]]]]]. known. apply compound_app. cbn [app].
    apply compound_here; auto. unfold hyphen_rn. now destruct (Ascii.eqb _ _).
Qed.
Lemma lujvo_smalls l t : parts l -> lujvo l t -> smalls t.
Proof.
  intros P L. assert (S : forall l, parts l -> smalls (joined l)) by (intros; now apply lax_smalls, parts_parts_lax).
  assert (Y : small "y" = true) by reflexivity.
  destruct L as [k p y l Hk|p y l H|p y l H1 H2|k p q Hk|k p y l Hk H]; auto; apply parts_uncons in P; destruct P as [M [F P]]; cbn [fst snd] in F;
    apply smalls_app; try (eapply form_smalls; eassumption); try apply smalls_app; auto.
  - sm.
  - apply (S [(CCV, q)]). exact P.
  - unfold hyphen_rn. destruct (Ascii.eqb _ _); sm; reflexivity.
Qed.
Lemma no_plus t : smalls t -> existsb (ceq "+") t = false.
Proof.
  intros S. rewrite <- not_true_iff_false, existsb_exists. intros [c [I E]]. apply Ascii.eqb_eq in E. subst c.
  unfold smalls in S. rewrite Forall_forall in S. specialize (S _ I). discriminate S.
Qed.
Lemma canon_spec l t gs : parts l -> lujvo l t -> Forall2 stands_for (map snd l) gs -> canon_lujvo t = Ok (Some (plus gs)).
Proof.
  intros P L S. unfold canon_lujvo. rewrite (no_plus t (lujvo_smalls l t P L)). unfold contains_compound_consonant.
  rewrite (lujvo_compound l t P L).
  assert (L6 : (6 <= List.length t)%nat).
  { destruct l as [|[k p] l]; [inversion P|]. now destruct (begins_first k p l t P L) as [_ [_ [B _]]]. }
  rewrite (proj2 (Nat.ltb_ge _ _)) by lia. cbv beta iota.
  rewrite (split_lujvo_spec l t gs P L S) by lia. reflexivity.
Qed.
(* ---- one analysis only ---- *)
Lemma form_kind k k' p : form k p -> form k' p -> k = k'.
Proof.
  intros F F'. destruct F; inversion F'; subst; auto; exfalso; known;
    repeat match goal with H : IC ?c = true, K : IC ?c = false |- _ => congruence end;
    pose proof ic_y as [_ [Y _]]; congruence.
Qed.
Lemma begins_inj p rest p' rest' t : begins p t rest -> begins p' t rest' -> p = p' /\ rest = rest'.
Proof.
  intros [_ [h [F [E1 E2]]]] [_ [h' [F' [E1' E2']]]]. rewrite F in F'. injection F' as Hl Hh. rewrite Hl in *. split; congruence.
Qed.
Lemma joined_inj l : parts l -> forall l', parts l' -> joined l = joined l' -> l = l'.
Proof.
  induction 1 as [k p K F|k p l K F P IH]; intros l' P' E; inversion P' as [k' p' K' F'|k' p' l2 K' F' P2]; subst.
  - cbn in E. subst p'. f_equal. f_equal. now apply form_kind with p.
  - destruct (begins_tail k' p' l2 K' F' P2) as [L _]. rewrite <- E in L. cbn [joined snd] in L. pose proof (final_len k p K F). lia.
  - destruct (begins_tail k p l K F P) as [L _]. rewrite E in L. cbn [joined snd] in L. pose proof (final_len k' p' K' F'). lia.
  - pose proof (begins_tail k p l K F P) as B. pose proof (begins_tail k' p' l2 K' F' P2) as B'. rewrite <- E in B'.
    destruct (begins_inj _ _ _ _ _ B B') as [<- E2]. rewrite (form_kind k k' p F F'). f_equal. now apply IH.
Qed.
Lemma lujvo_inj l l' t : parts l -> parts l' -> lujvo l t -> lujvo l' t -> l = l'.
Proof.
  intros P P' L L'. destruct l as [|[k p] l]; [inversion P|]. destruct l' as [|[k' p'] l']; [inversion P'|].
  destruct (begins_first k p l t P L) as [P1 [F B]]. destruct (begins_first k' p' l' t P' L') as [P1' [F' B']].
  destruct (begins_inj _ _ _ _ _ B B') as [<- E2]. rewrite (form_kind k k' p F F'). f_equal. now apply joined_inj.
Qed.
(* and one word only *)
Lemma lujvo_fun l t t' : lujvo l t -> lujvo l t' -> t = t'.
Proof.
  intros L L'. destruct L as [k p y l Hk|p y l H|p y l H1 H2|k p q Hk|k p y l Hk H]; inversion L'; subst; auto;
    repeat match goal with
    | K : _ \/ _ |- _ => destruct K; try discriminate; try contradiction; try congruence; try tauto
    end; try tauto; try congruence.
Qed.
(* ---- any string ---- *)
Lemma front_fits x len hy : (6 <= List.length x)%nat -> front x = Some (len, hy) -> (3 <= len /\ len + hy <= List.length x)%nat /\ (hy <= 1)%nat.
Proof.
  intros L H. unfold front in H.
  assert (Y : forall n, ceq (at_ x n) "y" = true -> (n < List.length x)%nat).
  { intros n K. destruct (Nat.lt_ge_cases n (List.length x)); auto. unfold at_ in K. rewrite nth_overflow in K by assumption. discriminate K. }
  repeat match type of H with
  | (if ?b then _ else _) = _ => destruct b eqn:?
  end; try discriminate H; injection H as <- <-;
  repeat match goal with K : _ && _ = true |- _ => apply andb_true_iff in K; destruct K end;
  repeat match goal with K : ceq (at_ x _) "y" = true |- _ => apply Y in K end; lia.
Qed.
Lemma split_total fuel : forall x, (List.length x < fuel)%nat -> exists r, split_lujvo fuel x = Ok r.
Proof.
  induction fuel as [|fuel IH]; intros x L; [lia|]. cbn [split_lujvo].
  destruct (List.length x) as [|[|[|[|[|[|n]]]]]] eqn:E; try (eexists; reflexivity).
  destruct (front x) as [[len hy]|] eqn:F; [|eexists; reflexivity].
  destruct (front_fits x len hy ltac:(lia) F) as [H _]. unfold strip.
  destruct (IH (skipn (len + hy) x)) as [r Er]; [rewrite skipn_length; lia|]. rewrite Er. cbn [obind]. eauto.
Qed.
Lemma canon_total x : exists r, canon_lujvo x = Ok r.
Proof.
  unfold canon_lujvo. destruct (existsb _ x); [eauto|]. destruct (contains_compound_consonant x); [|eauto].
  destruct (split_total (S (List.length x)) x ltac:(lia)) as [r ->]. cbn [obind]. eauto.
Qed.
(* what is reported is a division of the whole word into pieces and hyphens of at
   most one letter, with the components in the order of the pieces *)
Definition means (p : list ascii) (g : string) : Prop :=
  (List.length p = 5%nat /\ p = text g) \/ (exists s, In (s, g) r2g /\ p = text s) \/ (g = "?"%string /\ forall s g', In (s, g') r2g -> p <> text s).
Lemma lookup_means p : means p (lookup_component p).
Proof.
  unfold lookup_component. destruct (find _ r2g) as [[s g]|] eqn:E.
  - apply find_some in E. destruct E as [I E]. cbn [fst snd] in *. destruct (list_eq_dec _ _ _) as [<-|]; [|discriminate E]. right. left. eauto.
  - right. right. split; auto. intros s g' I ->. apply (find_none _ _ E) in I. cbn [fst] in I. destruct (list_eq_dec _ _ _) as [_|C]; [discriminate I | now destruct C].
Qed.
Lemma skipn_skipn' {A} (a b : nat) (l : list A) : skipn b (skipn a l) = skipn (a + b) l.
Proof. revert l. induction a as [|a IH]; intros l; [reflexivity|]. destruct l as [|x l]; [now rewrite !skipn_nil|]. cbn. apply IH. Qed.
Lemma split_covers fuel : forall x gs, split_lujvo fuel x = Ok (Some gs) ->
  exists ps, x = flat_map (fun q => fst q ++ snd q) ps /\ Forall2 means (map fst ps) gs /\ Forall (fun q : list ascii * list ascii => List.length (snd q) <= 1 /\ 3 <= List.length (fst q))%nat ps.
Proof.
  induction fuel as [|fuel IH]; intros x gs H; [discriminate H|]. cbn [split_lujvo] in H.
  assert (One : forall g, means x g -> (3 <= List.length x)%nat -> exists ps, x = flat_map (fun q => fst q ++ snd q) ps /\ Forall2 means (map fst ps) [g] /\ Forall (fun q : list ascii * list ascii => List.length (snd q) <= 1 /\ 3 <= List.length (fst q))%nat ps).
  { intros g M L3. exists [(x, [])]. cbn [flat_map map fst snd]. rewrite !app_nil_r.
    split; [reflexivity|]. split; constructor; auto. }
  destruct (List.length x) as [|[|[|[|[|[|n]]]]]] eqn:E; try discriminate H.
  - injection H as <-. apply One; [apply lookup_means | lia].
  - injection H as <-. apply One; [apply lookup_means | lia].
  - injection H as <-. apply One; [|lia]. left. split; auto. unfold text. now rewrite list_ascii_of_string_of_list_ascii.
  - destruct (front x) as [[len hy]|] eqn:F; [|discriminate H]. destruct (front_fits x len hy ltac:(lia) F) as [[H3 Hle] Hhy]. unfold strip in H.
    destruct (split_lujvo fuel (skipn (len + hy) x)) as [[r|]| | | |] eqn:Er; try discriminate H. cbn [obind option_map] in H. injection H as <-.
    destruct (IH _ _ Er) as [ps [E1 [E2 E3]]]. exists ((firstn len x, firstn hy (skipn len x)) :: ps). cbn [flat_map map fst snd].
    split; [|split].
    + rewrite <- E1. rewrite <- (firstn_skipn len x) at 1. rewrite <- app_assoc. f_equal.
      rewrite <- (firstn_skipn hy (skipn len x)) at 1. f_equal. apply skipn_skipn'.
    + constructor; auto. apply lookup_means.
    + constructor; auto. cbn [fst snd]. rewrite !firstn_length, skipn_length. lia.
Qed.

(* ---- there and back ---- *)
Definition first_letter (s : string) : ascii := match s with EmptyString => NUL | String c _ => c end.
Definition buckets : list (ascii * list (string * string)) :=
  map (fun c => (c, filter (fun e => ceq (first_letter (fst e)) c) r2g)) (text "bcdfgjklmnprstvxz").
Definition entered (b : list (ascii * list (string * string))) (s g : string) : bool :=
  existsb (fun cb => if ceq (fst cb) (first_letter s) then existsb (fun e => if String.eqb (fst e) s then String.eqb (snd e) g else false) (snd cb) else false) b.
Lemma entered_spec s g : entered buckets s g = true -> In (s, g) r2g.
Proof.
  unfold entered. rewrite existsb_exists. intros [[c l] [I H]]. unfold buckets in I. apply in_map_iff in I. destruct I as [c' [E _]].
  assert (E2 : l = filter (fun e => ceq (first_letter (fst e)) c') r2g) by exact (eq_sym (f_equal snd E)). clear E.
  cbn [fst snd] in H. destruct (ceq c _); [|discriminate H]. apply existsb_exists in H. destruct H as [[s' g'] [I H]].
  rewrite E2 in I. apply filter_In in I. cbn [fst snd] in H. destruct (String.eqb s' s) eqn:H1; [|discriminate H]. apply String.eqb_eq in H1, H. subst. tauto.
Qed.
Definition back_ok (b : list (ascii * list (string * string))) (i : nat) : bool :=
  match nth_error gismu i, short_rafsi i with
  | Some g, Ok l =>
      forallb (fun r => entered b (string_of_list_ascii r) g) l
      && (if Nat.eqb (String.length g) 5
          then is_brod (w g) || entered b (string_of_list_ascii (removelast (w g))) g else true)
  | _, _ => false
  end.
Lemma backs_ok : forallb (back_ok buckets) (seq 0 (List.length gismu)) = true.
Proof. vm_compute. reflexivity. Qed.
Lemma in_gismu_nth g : In g gismu -> exists i, nth_error gismu i = Some g.
Proof. apply In_nth_error. Qed.
Lemma back i g : nth_error gismu i = Some g -> back_ok buckets i = true.
Proof.
  intros H. pose proof backs_ok as R. rewrite forallb_forall in R. apply R, in_seq. split; [lia|]. cbn [Nat.add]. apply nth_error_Some. congruence.
Qed.
Lemma short_back g r : In g gismu -> short g r -> stands_for r g.
Proof.
  intros I S. destruct (in_gismu_nth g I) as [i Hi]. destruct (short_rafsi_ok i g Hi) as [l El].
  pose proof (proj2 (short_spec i g l Hi El r) S) as Ir. pose proof (back i g Hi) as B. pose proof (row i g Hi) as R.
  unfold back_ok in B. unfold row_ok in R. rewrite Hi, El in B, R. apply andb_true_iff in B. destruct B as [B _].
  rewrite !andb_true_iff in R. destruct R as [[[R _] _] _]. rewrite forallb_forall in B, R. specialize (B r Ir). specialize (R r Ir).
  apply entered_spec in B. destruct (usable_parts _ _ R) as [k [F [M _]]]. right. split; [destruct F; try discriminate M; cbn; lia|].
  exists (string_of_list_ascii r). split; auto. unfold text. now rewrite list_ascii_of_string_of_list_ascii.
Qed.
Lemma stem_back g r v : In g gismu -> text g = r ++ [v] -> List.length r = 4%nat -> r <> text "brod" -> stands_for r g.
Proof.
  intros I E L N. destruct (in_gismu_nth g I) as [i Hi]. destruct (short_rafsi_ok i g Hi) as [l El]. pose proof (back i g Hi) as B.
  unfold back_ok in B. rewrite Hi, El in B. apply andb_true_iff in B. destruct B as [_ B].
  assert (L5 : String.length g = 5%nat) by (rewrite <- text_len, E, app_length; cbn; lia). rewrite L5 in B. cbn [Nat.eqb] in B.
  assert (Er : removelast (w g) = r) by (unfold w; fold (text g); rewrite E; apply removelast_snoc).
  apply orb_true_iff in B. destruct B as [B|B].
  - apply is_brod_spec in B; auto. destruct B as [v' B]. rewrite E in B. apply app_last_inv in B. tauto.
  - rewrite Er in B. apply entered_spec in B. right. split; [lia|]. eexists. split; [exact B|]. unfold text. now rewrite list_ascii_of_string_of_list_ascii.
Qed.
Lemma choices_back long brod gs rs : choices long brod gs rs -> Forall (fun g => In g gismu) gs -> ~ In (text "brod") rs -> Forall2 stands_for rs gs.
Proof.
  induction 1 as [g r H|g gs r rs NE H C IH]; intros I N; inversion I; subst.
  - constructor; [|constructor]. destruct H as [[H _]|[-> [L _]]]; [now apply short_back|]. left. auto.
  - constructor; [|apply IH; auto; intros K; apply N; now right].
    destruct H as [H|[[v E] [L _]]]; [now apply short_back|]. apply stem_back with v; auto. intros ->. apply N. now left.
Qed.
Lemma made_back o words cs hit c : makelujvo o words = Ok (cs, hit) -> In c cs -> mark c <> "!"%char ->
  exists gs, Forall2 typed words gs /\ canon_lujvo (cword_of c) = Ok (Some (plus gs)).
Proof.
  intros H I M. destruct (made o words cs hit H) as [_ [gs [all [T [Ig [_ [C [F _]]]]]]]]. exists gs. split; auto.
  assert (exists rs, In rs all /\ made_of rs c) as [rs [Ir [l [El [P [L [_ B]]]]]]].
  { assert (K : forall rs, In rs (firstn MAX_LUJVO_COUNT all) -> In rs all).
    { intros rs K. rewrite <- (firstn_skipn MAX_LUJVO_COUNT). apply in_or_app. auto. }
    clear -F I K. revert K I. induction F as [|x y L cs Hx F IH]; intros K I; [destruct I|]. destruct I as [->|I].
    - exists x. split; auto. apply K. now left.
    - apply IH; auto. intros rs Hr. apply K. now right. }
  apply canon_spec with l; auto. rewrite El. apply choices_back with (uselong o) (allowbrod o); auto; [now apply C|]. intros K. now apply M, B.
Qed.
