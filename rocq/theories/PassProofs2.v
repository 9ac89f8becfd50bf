(* Proofs about relative.c. *)
From Coq Require Import String List NArith Bool Arith Lia.
From Verif Require Import Base TokData CmavoData TokModel StreamModel TreeModel TreeOutModel GrammarData GramModel GramSpec
  GramProofs PassModel PassSpec.
Import ListNotations.
Open Scope string_scope.
Open Scope list_scope.

(* the ancestors at a place *)
Fixpoint ancs (anc : ancestors) (p : path) (x : tree) (q : path) : ancestors :=
  match q, x with
  | i :: q, NT ty ch =>
      match nth_error ch i with
      | Some c => ancs (enter p ty ch anc) (p ++ [i]) c q
      | None => anc
      end
  | _, _ => anc
  end.

Lemma ancs_app q : forall r anc p x s, subtree x q = Some s -> ancs anc p x (q ++ r) = ancs (ancs anc p x q) (p ++ q) s r.
Proof.
  induction q as [|i q IH]; intros r anc p x s E; cbn [app ancs].
  - injection E as ->. rewrite app_nil_r. reflexivity.
  - destruct x as [x|ty ch]; [discriminate E |]. cbn [subtree] in E. destruct (nth_error ch i) as [c|]; [| discriminate E].
    rewrite (IH r _ _ c s E), <- app_assoc. reflexivity.
Qed.

Lemma subtree_app q : forall r x s, subtree x q = Some s -> subtree x (q ++ r) = subtree s r.
Proof.
  induction q as [|i q IH]; intros r x s E; cbn [app].
  - injection E as ->. reflexivity.
  - destruct x as [x|ty ch]; [discriminate E |]. cbn [subtree] in *. destruct (nth_error ch i) as [c|]; [| discriminate E].
    apply IH. exact E.
Qed.
Lemma subtree_prefix q : forall r x s, subtree x (q ++ r) = Some s -> exists s', subtree x q = Some s' /\ subtree s' r = Some s.
Proof.
  induction q as [|i q IH]; intros r x s E.
  - exists x. auto.
  - change ((i :: q) ++ r) with (i :: (q ++ r)) in E. destruct x as [x|ty ch]; [discriminate E |].
    cbn [subtree] in *. destruct (nth_error ch i) as [c|]; [| discriminate E]. apply IH. exact E.
Qed.
Lemma subtree_snoc x p i s : subtree x (p ++ [i]) = Some s -> exists ty ch, subtree x p = Some (NT ty ch) /\ nth_error ch i = Some s.
Proof.
  intro E. destruct (subtree_prefix p [i] x s E) as (s' & E1 & E2). destruct s' as [y|ty ch]; [discriminate E2 |].
  exists ty, ch. cbn [subtree] in E2. destruct (nth_error ch i); [auto | discriminate E2].
Qed.

Lemma types_ancs q : forall anc p x s, subtree x q = Some s ->
  map (fun a => snd (fst a)) (ancs anc p x q) = around x q ++ map (fun a => snd (fst a)) anc.
Proof.
  induction q as [|i q IH]; intros anc p x s E; [reflexivity |].
  destruct x as [x|ty ch]; [discriminate E |]. cbn [subtree ancs around] in *. destruct (nth_error ch i) as [c|]; [| discriminate E].
  rewrite (IH _ _ _ _ E). unfold enter. destruct (String.eqb ty "AUGMENTED"); [rewrite app_nil_r |rewrite <- app_assoc]; reflexivity.
Qed.

(* ---------- a walk over the tree that writes at each node, after the children ---------- *)
Section SCAN.
  Variable W : Type.
  Variable here : ancestors -> path -> tree -> outcome (list W).
  Fixpoint gscan (anc : ancestors) (p : path) (x : tree) : outcome (list W) :=
    do r <- match x with
            | Leaf _ => Ok []
            | NT ty ch =>
                (fix go (i : nat) (l : list tree) : outcome (list W) :=
                   match l with
                   | [] => Ok []
                   | c :: l => do u <- gscan (enter p ty ch anc) (p ++ [i]) c; do v <- go (S i) l; Ok (u ++ v)
                   end) 0 ch
            end;
    do h <- here anc p x;
    Ok (r ++ h).
  Definition glist (anc : ancestors) (p : path) :=
    fix go (i : nat) (l : list tree) : outcome (list W) :=
      match l with
      | [] => Ok []
      | c :: l => do u <- gscan anc (p ++ [i]) c; do v <- go (S i) l; Ok (u ++ v)
      end.

  Lemma gscan_found x : forall anc p,
    (forall q s, subtree x q = Some s -> exists w, here (ancs anc p x q) (p ++ q) s = Ok w) ->
    exists ws, gscan anc p x = Ok ws /\
      forall w, In w ws <-> exists q s l, subtree x q = Some s /\ here (ancs anc p x q) (p ++ q) s = Ok l /\ In w l.
  Proof.
    induction x as [x|ty ch IH] using tree_ind2; intros anc p H.
    - destruct (H [] (Leaf x) eq_refl) as [w E]. cbn [ancs] in E. rewrite app_nil_r in E. cbn [gscan obind].
      rewrite E. eexists. split; [reflexivity |]. intro v. split.
      + intro I. exists [], (Leaf x), w. cbn [ancs]. rewrite app_nil_r. auto.
      + intros (q & s & l & Q & L & I). destruct q; [| discriminate Q]. injection Q as <-. cbn [ancs] in L.
        rewrite app_nil_r in L. cbn [app]. congruence.
    - assert (G : forall l n, (forall i c, nth_error l i = Some c -> nth_error ch (n + i) = Some c) -> Forall (fun c => In c ch) l ->
              exists ws, glist (enter p ty ch anc) p n l = Ok ws /\
                forall w, In w ws <-> exists i q x s k, nth_error l i = Some x /\ subtree x q = Some s /\
                  here (ancs (enter p ty ch anc) (p ++ [n + i]) x q) (p ++ (n + i) :: q) s = Ok k /\ In w k).
      { induction l as [|a l IHl]; intros n N F.
        - eexists. split; [reflexivity |]. intro w. split; [intros [] |]. intros (i & q & x & s & k & E & _). destruct i; discriminate E.
        - destruct (IHl (S n)) as (ws & E & SP).
          + intros i c I. replace (S n + i) with (n + S i) by lia. apply N. exact I.
          + apply (Forall_inv_tail F).
          + assert (NA : nth_error ch n = Some a) by (rewrite <- (Nat.add_0_r n); apply (N 0 a eq_refl)).
            rewrite Forall_forall in IH. destruct (IH a (Forall_inv F) (enter p ty ch anc) (p ++ [n])) as (us & EU & FU).
            * intros q s Q. assert (Q' : subtree (NT ty ch) (n :: q) = Some s).
              { cbn [subtree]. rewrite NA. exact Q. }
              destruct (H _ _ Q') as [o O]. exists o. rewrite <- O. cbn [ancs]. rewrite NA, <- app_assoc. reflexivity.
            * exists (us ++ ws). cbn [glist]. fold (glist (enter p ty ch anc) p). rewrite EU. cbn [obind]. rewrite E. cbn [obind].
              split; [reflexivity |]. intro w. rewrite in_app_iff, (FU w), (SP w). split.
              -- intros [(q & s & k & X1 & X2 & X3)|(i & q & x & s & k & I & X1 & X2 & X3)].
                 ++ exists 0, q, a, s, k. rewrite Nat.add_0_r. rewrite <- app_assoc in X2. auto.
                 ++ exists (S i), q, x, s, k. replace (n + S i) with (S n + i) by lia. auto.
              -- intros (i & q & x & s & k & I & X1 & X2 & X3). destruct i as [|i].
                 ++ injection I as <-. left. exists q, s, k. rewrite Nat.add_0_r in X2. rewrite <- app_assoc. auto.
                 ++ right. exists i, q, x, s, k. replace (n + S i) with (S n + i) in X2 by lia. auto. }
      destruct (G ch 0 (fun i c E => E)) as (ws & E & SP); [apply Forall_forall; auto |].
      destruct (H [] _ eq_refl) as [h EH]. cbn [ancs] in EH. rewrite app_nil_r in EH.
      eexists. split.
      + cbn [gscan]. fold (glist (enter p ty ch anc) p). rewrite E. cbn [obind]. rewrite EH. cbn [obind]. reflexivity.
      + intro w. rewrite in_app_iff, (SP w). split.
        * intros [(i & q & x & s & k & N & X1 & X2 & X3)|I].
          -- exists (i :: q), s, k. cbn [subtree ancs]. rewrite N. auto.
          -- exists [], (NT ty ch), h. cbn [ancs]. rewrite app_nil_r. auto.
        * intros (q & s & k & X1 & X2 & X3). destruct q as [|i q].
          -- right. injection X1 as <-. cbn [ancs] in X2. rewrite app_nil_r in X2. congruence.
          -- left. cbn [subtree ancs] in X1, X2. destruct (nth_error ch i) as [x|] eqn:N; [| discriminate X1].
             exists i, q, x, s, k. auto.
  Qed.
End SCAN.

(* ---------- relative_scan is such a walk ---------- *)
Definition rel_here (anc : ancestors) (p : path) (x : tree) : outcome (list rwrite) :=
  match x with
  | Leaf n => if is_keha n then process_keha anc p else Ok []
  | NT ty ch =>
      do a <- (if String.eqb ty "RELATIVE_CLAUSE" then process_any_rel_clause anc p else Ok []);
      do g <- (if String.eqb ty "TERM_RELATIVE_CLAUSE" then process_goi_clause p ch else Ok []);
      Ok (a ++ g)
  end.
Definition rlist (anc : ancestors) (p : path) :=
  fix go (i : nat) (l : list tree) : outcome (list rwrite) :=
    match l with
    | [] => Ok []
    | c :: l => do u <- relative_scan anc (p ++ [i]) c; do v <- go (S i) l; Ok (u ++ v)
    end.
Lemma rel_gscan x : forall anc p, relative_scan anc p x = gscan _ rel_here anc p x.
Proof.
  induction x as [x|ty ch IH] using tree_ind2; intros anc p.
  - cbn [relative_scan gscan obind rel_here]. destruct (is_keha x); [| reflexivity].
    destruct (process_keha anc p); reflexivity.
  - cbn [relative_scan gscan]. fold (rlist (enter p ty ch anc) p). fold (glist _ rel_here (enter p ty ch anc) p).
    assert (E : forall l, Forall (fun x => forall anc p, relative_scan anc p x = gscan _ rel_here anc p x) l ->
                 forall n, rlist (enter p ty ch anc) p n l = glist _ rel_here (enter p ty ch anc) p n l).
    { induction 1 as [|c l H F IHF]; intro n; [reflexivity |]. cbn [rlist glist]. rewrite H.
      fold (rlist (enter p ty ch anc) p). fold (glist _ rel_here (enter p ty ch anc) p). rewrite IHF. reflexivity. }
    rewrite (E ch IH). destruct (glist _ _ _ _ _ _); cbn [obind]; try reflexivity.
    cbn [rel_here].
    destruct (if String.eqb ty "RELATIVE_CLAUSE" then _ else _); cbn [obind]; try reflexivity.
    destruct (if String.eqb ty "TERM_RELATIVE_CLAUSE" then _ else _); cbn [obind]; reflexivity.
Qed.

(* ---------- nodes of parse trees ---------- *)

Lemma at_ornament p : forall t s, ornament t -> subtree t p = Some s -> ornament s.
Proof.
  induction p as [|i p IH]; intros t s O E; [injection E as <-; exact O |].
  destruct t as [x|ty ch]; [discriminate E |]. apply ornament_NT in O. destruct O as [_ F].
  cbn [subtree] in E. destruct (nth_error ch i) as [c|] eqn:N; [| discriminate E].
  apply (IH c s); [| exact E]. rewrite Forall_forall in F. apply F. eapply nth_error_In. exact N.
Qed.

Definition sound (s : tree) : Prop :=
  match s with
  | Leaf _ => True
  | NT k _ => (k <> "AUGMENTED" /\ parsed s) \/ ornament s \/ exists t, wordlike t s
  end.

Lemma at_sound p : forall ty ch s, parsed (NT ty ch) -> ty <> "AUGMENTED" -> subtree (NT ty ch) p = Some s -> sound s.
Proof.
  induction p as [|i p IH]; intros ty ch s P A E; [injection E as <-; left; auto |].
  cbn [subtree] in E. destruct (nth_error ch i) as [c|] eqn:N; [| discriminate E]. pose proof (nth_error_In _ _ N) as NI.
  destruct (child_kinds ty ch c P A NI) as [(k & cc & -> & K)|(t & W & K)].
  - apply (IH k cc); [eapply parsed_children; eassumption | intros ->; exact (no_augmented ty K) | exact E].
  - destruct p as [|j p].
    + injection E as <-. destruct c; [exact I | right; right; eauto].
    + destruct (wordlike_inv _ _ W) as [(x & X & ->)|(bs & x & us & B & X & U & ->)]; [discriminate E |]. cbn [subtree] in E.
      destruct (nth_error (bs ++ Leaf x :: us) j) as [c|] eqn:N'; [| discriminate E].
      assert (J : ornament c \/ c = Leaf x).
      { apply nth_error_In in N'. apply in_app_or in N'. rewrite Forall_forall in B, U.
        destruct N' as [Z|[Z|Z]]; [left; apply B; exact Z | right; congruence | left; apply U; exact Z]. }
      destruct J as [O| ->].
      * pose proof (at_ornament p c s O E). destruct s; [exact I | right; left; assumption].
      * destruct p; [injection E as <-; exact I | discriminate E].
Qed.

Lemma parent_of t p i k cc : parsed t -> is_nt "CHUNKS" t = true -> subtree t (p ++ [i]) = Some (NT k cc) -> k <> "AUGMENTED" ->
  exists ty ch, subtree t p = Some (NT ty ch) /\ nth_error ch i = Some (NT k cc) /\ ty <> "AUGMENTED" /\ parsed (NT ty ch) /\ In k (kids ty).
Proof.
  intros P C E A. destruct (subtree_snoc t p i _ E) as (ty & ch & E1 & E2). exists ty, ch.
  destruct t as [x|top tch]; [discriminate C |]. apply String.eqb_eq in C. subst top.
  assert (S1 : sound (NT ty ch)) by (eapply at_sound; [exact P | discriminate | exact E1]).
  pose proof (nth_error_In _ _ E2) as NI.
  destruct S1 as [[T PT]|[O|[tk W]]].
  - repeat split; try assumption. destruct (child_kinds ty ch _ PT T NI) as [(k' & cc' & Q & K)|(tk & W & K)].
    + injection Q as <- <-. exact K.
    + inversion W. congruence.
  - exfalso. apply ornament_NT in O. destruct O as [_ F]. rewrite Forall_forall in F. specialize (F _ NI).
    apply ornament_NT in F. destruct F as [F _]. contradiction.
  - exfalso. destruct (wordlike_inv _ _ W) as [(x & X & Q)|(bs & x & us & B & X & U & Q)]; [discriminate Q |]. injection Q as -> ->. apply in_app_or in NI. rewrite Forall_forall in B, U.
    destruct NI as [NI|[NI|NI]]; [apply B in NI | discriminate NI | apply U in NI];
      apply ornament_NT in NI; destruct NI as [F _]; contradiction.
Qed.

Lemma kids_parents (k : string) (l : list string) :
  forallb (fun r => if existsb (existsb (fun s => match s with SN k' => String.eqb k' k | _ => false end)) (snd r)
                    then existsb (String.eqb (fst r)) l else true) grammar = true ->
  forall ty, In k (kids ty) -> In ty l.
Proof.
  intros C ty K. rewrite forallb_forall in C. unfold kids in K. apply in_flat_map in K. destruct K as (ss & IS & K).
  apply in_flat_map in K. destruct K as (s & IN & K).
  unfold alternatives in IS. apply in_flat_map in IS. destruct IS as (r & RI & IS).
  destruct (String.eqb_spec (fst r) ty) as [E|E]; [| destruct IS]. specialize (C r RI). cbv beta in C.
  replace (existsb (existsb _) (snd r)) with true in C.
  - apply existsb_exists in C. destruct C as (y & Y & Q). apply String.eqb_eq in Q. congruence.
  - symmetry. apply existsb_exists. exists ss. split; [exact IS |]. apply existsb_exists. exists s. split; [exact IN |].
    destruct s as [k'|t|t]; [destruct K as [->|[]] | destruct K | destruct K]. apply String.eqb_refl.
Qed.

Definition nine : list string :=
  ["FRAGMENT"; "SUMTI"; "SUMTI_5"; "LAHE_SUMTI_6"; "NAHE_BO_SUMTI_6"; "NAME_SUMTI_6"; "SUMTI_TAIL"; "SUMTI_TAIL_1"; "FREE_VOCATIVE"].
Lemma clauses_in ty : In "RELATIVE_CLAUSES" (kids ty) -> In ty nine.
Proof. apply (kids_parents "RELATIVE_CLAUSES" nine). vm_compute. reflexivity. Qed.
Lemma seq_in ty : In "RELATIVE_CLAUSE_SEQ" (kids ty) -> In ty ["RELATIVE_CLAUSE_SEQ"; "RELATIVE_CLAUSES"].
Proof. apply (kids_parents "RELATIVE_CLAUSE_SEQ"). vm_compute. reflexivity. Qed.
Lemma clause_in ty : In "RELATIVE_CLAUSE" (kids ty) -> In ty ["RELATIVE_CLAUSE_SEQ"].
Proof. apply (kids_parents "RELATIVE_CLAUSE"). vm_compute. reflexivity. Qed.

(* ---------- the antecedent ---------- *)

Lemma wordlike_not t x k : wordlike t x -> k <> "AUGMENTED" -> is_nt k x = false.
Proof.
  intros [y Y|bs y us B Y U] A; [reflexivity |]. cbn [is_nt]. destruct (String.eqb_spec "AUGMENTED" k); [congruence | reflexivity].
Qed.
Lemma not_clauses t cc : ~ wordlike t (NT "RELATIVE_CLAUSES" cc).
Proof. intro W. inversion W. Qed.

Definition spec_of (q : path) (k : string) (j : nat) (o : option path) : Prop :=
  forall a, o = Some a <-> exists b, about k j b /\ a = extend q b.

Lemma spec_some q k j b : about k j b -> (forall b', about k j b' -> b' = b) -> spec_of q k j (Some (extend q b)).
Proof.
  intros A U a. split.
  - intros [= <-]. eauto.
  - intros (b' & A' & ->). rewrite (U b' A'). reflexivity.
Qed.
Lemma spec_none q k j : (forall b', ~ about k j b') -> spec_of q k j None.
Proof. intros U a. split; [discriminate | intros (b & A & _); destruct (U b A)]. Qed.

Ltac about_unique := intros [?|] X; inversion X; subst; try reflexivity; try congruence;
  repeat match goal with
  | H : _ \/ _ |- _ => destruct H; try discriminate
  | H : S _ = S _ |- _ => injection H as ->
  | H : 0 = S _ |- _ => discriminate H
  | H : S _ = 0 |- _ => discriminate H
  end; try discriminate; try reflexivity; try (f_equal; lia).

Ltac about_none := let b := fresh "b" in let X := fresh "X" in intros b X; inversion X; subst; try discriminate;
  repeat match goal with H : _ \/ _ |- _ => destruct H; try discriminate end; try discriminate.

Lemma fitsx_split k cc ss ch : fitsx ss ch -> k <> "AUGMENTED" -> forall j, nth_error ch j = Some (NT k cc) ->
  exists ss1 ss2 ch1 ch2, ss = ss1 ++ SN k :: ss2 /\ ch = ch1 ++ NT k cc :: ch2 /\ List.length ch1 = j /\ fitsx ss1 ch1 /\ fitsx ss2 ch2.
Proof.
  intros F A. induction F as [|ty ss ch cs F IH|t x ss cs W F IH|t ss cs F IH|t x ss cs W F IH]; intros j N.
  - destruct j; discriminate N.
  - destruct j as [|j].
    + injection N as -> ->. exists [], ss, [], cs. repeat split; auto. constructor.
    + destruct (IH j N) as (s1 & s2 & c1 & c2 & -> & -> & L & F1 & F2).
      exists (SN ty :: s1), s2, (NT ty ch :: c1), c2. repeat split; cbn; auto. constructor. exact F1.
  - destruct j as [|j].
    + injection N as ->. inversion W. congruence.
    + destruct (IH j N) as (s1 & s2 & c1 & c2 & -> & -> & L & F1 & F2).
      exists (ST t :: s1), s2, (x :: c1), c2. repeat split; cbn; auto. constructor; assumption.
  - destruct (IH j N) as (s1 & s2 & c1 & c2 & -> & -> & L & F1 & F2).
    exists (SE t :: s1), s2, c1, c2. repeat split; cbn; auto. constructor. exact F1.
  - destruct j as [|j].
    + injection N as ->. inversion W. congruence.
    + destruct (IH j N) as (s1 & s2 & c1 & c2 & -> & -> & L & F1 & F2).
      exists (SE t :: s1), s2, (x :: c1), c2. repeat split; cbn; auto. apply fx_supplied; assumption.
Qed.

Fixpoint chk (good : list sym -> list sym -> bool) (k : string) (pre ss : list sym) : bool :=
  match ss with
  | [] => true
  | s :: ss =>
      if (match s with SN k' => String.eqb k' k | _ => false end) then if good pre ss then chk good k (pre ++ [s]) ss else false
      else chk good k (pre ++ [s]) ss
  end.
Lemma chk_sound good k ss1 : forall pre ss2, chk good k pre (ss1 ++ SN k :: ss2) = true -> good (pre ++ ss1) ss2 = true.
Proof.
  induction ss1 as [|s ss1 IH]; intros pre ss2; cbn [app chk].
  - rewrite String.eqb_refl, app_nil_r. destruct (good pre ss2); [reflexivity | discriminate].
  - intro C. change (s :: ss1) with ([s] ++ ss1). rewrite app_assoc. apply IH.
    destruct (match s with SN k' => String.eqb k' k | _ => false end); [destruct (good pre _); [exact C | discriminate C] | exact C].
Qed.

Lemma clauses_shape good k ch j cc : parsed (NT k ch) -> k <> "AUGMENTED" -> nth_error ch j = Some (NT "RELATIVE_CLAUSES" cc) ->
  forallb (chk good "RELATIVE_CLAUSES" []) (alternatives k) = true ->
  exists ss1 ss2 ch1 ch2, good ss1 ss2 = true /\ ch = ch1 ++ NT "RELATIVE_CLAUSES" cc :: ch2 /\ List.length ch1 = j /\
    fitsx ss1 ch1 /\ fitsx ss2 ch2.
Proof.
  intros P A N C. apply parsed_NT in P. destruct P as [X|[(ss & IS & F) _]]; [contradiction |].
  destruct (fitsx_split "RELATIVE_CLAUSES" cc ss ch F ltac:(discriminate) j N) as (ss1 & ss2 & ch1 & ch2 & -> & -> & L & F1 & F2).
  exists ss1, ss2, ch1, ch2. repeat split; auto. rewrite forallb_forall in C. apply (chk_sound good "RELATIVE_CLAUSES" ss1 [] ss2). apply C. exact IS.
Qed.

Definition is_SN (k : string) (s : sym) : bool := match s with SN k' => String.eqb k' k | _ => false end.
Lemma find_none k ss ch : k <> "AUGMENTED" -> fitsx ss ch -> existsb (is_SN k) ss = false ->
  forall i l, find_nth_child i (ch ++ l) 1 k = find_nth_child (i + List.length ch) l 1 k.
Proof.
  intros A F. induction F as [|ty ss ch cs F IH|t x ss cs W F IH|t ss cs F IH|t x ss cs W F IH]; cbn [existsb]; intros E i l.
  - rewrite Nat.add_0_r. reflexivity.
  - apply orb_false_iff in E. destruct E as [E1 E2]. cbn [app find_nth_child is_nt]. unfold is_SN in E1. rewrite E1.
    rewrite (IH E2). cbn [List.length]. f_equal. lia.
  - apply orb_false_iff in E. destruct E as [E1 E2]. cbn [app find_nth_child]. rewrite (wordlike_not _ _ _ W A).
    rewrite (IH E2). cbn [List.length]. f_equal. lia.
  - apply IH. exact E.
  - apply orb_false_iff in E. destruct E as [E1 E2]. cbn [app find_nth_child]. rewrite (wordlike_not _ _ _ W A).
    rewrite (IH E2). cbn [List.length]. f_equal. lia.
Qed.

(* right before: one part; first: there is a part before *)
Definition one_before (pre post : list sym) : bool := match pre with [SN _] => true | _ => false end.
Definition some_before (pre post : list sym) : bool := match pre with SN _ :: _ => true | _ => false end.
Definition sumti_next (pre post : list sym) : bool :=
  if existsb (is_SN "SUMTI") pre then false else match post with SN k :: _ => String.eqb k "SUMTI" | _ => false end.
Definition tail_shape (pre post : list sym) : bool :=
  match pre with
  | [] => negb (existsb (is_SN "SUMTI_6") post)
  | [SN k] => String.eqb k "SUMTI_6"
  | _ => false
  end.
Lemma sh_sumti : forallb (chk some_before "RELATIVE_CLAUSES" []) (alternatives "SUMTI") = true.
Proof. vm_compute. reflexivity. Qed.
Lemma sh_sumti5 : forallb (chk one_before "RELATIVE_CLAUSES" []) (alternatives "SUMTI_5") = true.
Proof. vm_compute. reflexivity. Qed.
Lemma sh_tail1 : forallb (chk one_before "RELATIVE_CLAUSES" []) (alternatives "SUMTI_TAIL_1") = true.
Proof. vm_compute. reflexivity. Qed.
Lemma sh_lahe : forallb (chk sumti_next "RELATIVE_CLAUSES" []) (alternatives "LAHE_SUMTI_6") = true.
Proof. vm_compute. reflexivity. Qed.
Lemma sh_nahe : forallb (chk sumti_next "RELATIVE_CLAUSES" []) (alternatives "NAHE_BO_SUMTI_6") = true.
Proof. vm_compute. reflexivity. Qed.
Lemma sh_tail : forallb (chk tail_shape "RELATIVE_CLAUSES" []) (alternatives "SUMTI_TAIL") = true.
Proof. vm_compute. reflexivity. Qed.

Lemma one_before_at ss1 ss2 ch1 : one_before ss1 ss2 = true -> fitsx ss1 ch1 -> List.length ch1 = 1.
Proof.
  unfold one_before. destruct ss1 as [|[k|t|t] [|s ss1]]; try discriminate. intros _ F. inversion F; subst.
  match goal with H : fitsx [] _ |- _ => inversion H end. reflexivity.
Qed.

Lemma before_spec q k ch j cc : (k = "LAHE_SUMTI_6" \/ k = "NAHE_BO_SUMTI_6") ->
  parsed (NT k ch) -> nth_error ch j = Some (NT "RELATIVE_CLAUSES" cc) ->
  find_nth_child 0 ch 1 "SUMTI" = Some (S j) /\ spec_of q k j (Some (q ++ [S j])).
Proof.
  intros K P N. split.
  - assert (A : k <> "AUGMENTED") by (destruct K; subst; discriminate).
    assert (C : forallb (chk sumti_next "RELATIVE_CLAUSES" []) (alternatives k) = true) by (destruct K; subst; [apply sh_lahe | apply sh_nahe]).
    destruct (clauses_shape sumti_next k ch j cc P A N C) as (ss1 & ss2 & ch1 & ch2 & G & -> & L & F1 & F2).
    unfold sumti_next in G. destruct (existsb (is_SN "SUMTI") ss1) eqn:E; [discriminate G |].
    destruct ss2 as [|[k'|t|t] ss2]; try discriminate G. apply String.eqb_eq in G. subst k'. inversion F2; subst.
    rewrite (find_none "SUMTI" ss1 ch1 ltac:(discriminate) F1 E). cbn [find_nth_child is_nt String.eqb Ascii.eqb Bool.eqb]. reflexivity.
  - apply (spec_some q k j (Some (S j))).
    + apply ab_before. exact K.
    + destruct K; subst; about_unique.
Qed.

Lemma antecedent_spec q k ch j cc : parsed (NT k ch) -> k <> "AUGMENTED" -> nth_error ch j = Some (NT "RELATIVE_CLAUSES" cc) ->
  exists o, antecedent_in q k ch = Ok o /\ spec_of q k j o.
Proof.
  intros P A N. pose proof (nth_error_In _ _ N) as NI.
  assert (K : In k nine).
  { destruct (child_kinds k ch _ P A NI) as [(k' & cc' & Q & K)|(tk & W & K)].
    - injection Q as <- <-. apply clauses_in. exact K.
    - exfalso. eapply not_clauses. exact W. }
  unfold nine in K.
  destruct K as [K|[K|[K|[K|[K|[K|[K|[K|[K|[]]]]]]]]]]; subst k.
  - exists None. split; [reflexivity |]. apply spec_none. about_none.
  - destruct (clauses_shape _ _ ch j cc P A N sh_sumti) as (ss1 & ss2 & ch1 & ch2 & G & -> & L & F1 & F2).
    exists (Some (q ++ [0])). split.
    + unfold antecedent_in. cbn [one_of existsb String.eqb Ascii.eqb Bool.eqb orb]. destruct ch1; reflexivity.
    + apply (spec_some q "SUMTI" j (Some 0)); [constructor; reflexivity | about_unique].
  - destruct (clauses_shape _ _ ch j cc P A N sh_sumti5) as (ss1 & ss2 & ch1 & ch2 & G & -> & L & F1 & F2).
    rewrite (one_before_at _ _ _ G F1) in L. subst j. exists (Some (q ++ [0])). split.
    + unfold antecedent_in. cbn [one_of existsb String.eqb Ascii.eqb Bool.eqb orb]. destruct ch1; reflexivity.
    + apply (spec_some q "SUMTI_5" 1 (Some 0)); [apply ab_after; auto | about_unique].
  - destruct (before_spec q "LAHE_SUMTI_6" ch j cc (or_introl eq_refl) P N) as [E SP]. eexists. split; [| exact SP].
    unfold antecedent_in. cbn [one_of existsb String.eqb Ascii.eqb Bool.eqb orb]. rewrite E. reflexivity.
  - destruct (before_spec q "NAHE_BO_SUMTI_6" ch j cc (or_intror eq_refl) P N) as [E SP]. eexists. split; [| exact SP].
    unfold antecedent_in. cbn [one_of existsb String.eqb Ascii.eqb Bool.eqb orb]. rewrite E. reflexivity.
  - exists (Some q). split; [reflexivity |]. apply (spec_some q "NAME_SUMTI_6" j None); [apply ab_whole; auto | about_unique].
  - destruct (clauses_shape _ _ ch j cc P A N sh_tail) as (ss1 & ss2 & ch1 & ch2 & G & -> & L & F1 & F2).
    unfold antecedent_in. cbn [one_of existsb String.eqb Ascii.eqb Bool.eqb orb].
    destruct ss1 as [|[k'|t|t] [|s ss1]]; try discriminate G; cbn [tail_shape] in G.
    + apply negb_true_iff in G. inversion F1; subst ch1. cbn in L. subst j. exists None. split.
      * cbn [app find_nth_child is_nt String.eqb Ascii.eqb Bool.eqb]. rewrite <- (app_nil_r ch2).
        rewrite (find_none "SUMTI_6" ss2 ch2 ltac:(discriminate) F2 G). reflexivity.
      * apply spec_none. about_none.
    + apply String.eqb_eq in G. subst k'. inversion F1; subst. match goal with H : fitsx [] _ |- _ => inversion H; subst end.
      exists (Some (q ++ [0])). split; [reflexivity |].
      apply (spec_some q "SUMTI_TAIL" 1 (Some 0)); [apply ab_after; auto | about_unique].
  - destruct (clauses_shape _ _ ch j cc P A N sh_tail1) as (ss1 & ss2 & ch1 & ch2 & G & -> & L & F1 & F2).
    rewrite (one_before_at _ _ _ G F1) in L. subst j. exists (Some (q ++ [0])). split.
    + unfold antecedent_in. cbn [one_of existsb String.eqb Ascii.eqb Bool.eqb orb]. destruct ch1; reflexivity.
    + apply (spec_some q "SUMTI_TAIL_1" 1 (Some 0)); [apply ab_after; auto | about_unique].
  - exists (Some q). split; [reflexivity |]. apply (spec_some q "FREE_VOCATIVE" j None); [apply ab_whole; auto | about_unique].
Qed.

(* ---------- the innermost node of a kind ---------- *)

Fixpoint split_at (k : string) (anc : ancestors) : option (path * list tree * ancestors) :=
  match anc with
  | [] => None
  | (q, ty, ch) :: up => if String.eqb ty k then Some (q, ch, up) else split_at k up
  end.

Lemma snoc_eq (p q : path) i j r : p ++ [i] = q ++ j :: r -> (p = q /\ i = j /\ r = []) \/ exists r', p = q ++ j :: r' /\ r = r' ++ [i].
Proof.
  intro E. destruct r as [|x r] using rev_ind; [left | right].
  - apply app_inj_tail in E. destruct E as [-> ->]. auto.
  - exists r. change (j :: r ++ [x]) with ((j :: r) ++ [x]) in E. rewrite app_assoc in E. apply app_inj_tail in E.
    destruct E as [-> ->]. auto.
Qed.

Lemma ancs_snoc T p i ty ch s : subtree T p = Some (NT ty ch) -> nth_error ch i = Some s ->
  ancs [] [] T (p ++ [i]) = enter p ty ch (ancs [] [] T p).
Proof. intros E N. rewrite (ancs_app p [i] [] [] T _ E). cbn [ancs app]. rewrite N. reflexivity. Qed.

Lemma split_spec k T : k <> "AUGMENTED" -> forall p s, subtree T p = Some s ->
  match split_at k (ancs [] [] T p) with
  | Some (q, ch, rest) => innermost k T p q /\ subtree T q = Some (NT k ch) /\ rest = ancs [] [] T q
  | None => forall q i r ch, p = q ++ i :: r -> subtree T q <> Some (NT k ch)
  end.
Proof.
  intros A p. induction p as [|i p IH] using rev_ind; intros s E.
  - assert (EA : ancs [] [] T [] = []) by (destruct T; reflexivity). rewrite EA. cbn [split_at].
    intros q i r ch Q. destruct q; discriminate Q.
  - destruct (subtree_snoc T p i s E) as (ty & ch & E1 & N). rewrite (ancs_snoc T p i ty ch s E1 N). specialize (IH _ E1).
    destruct (String.eqb_spec ty k) as [->|NE].
    + unfold enter. destruct (String.eqb_spec k "AUGMENTED"); [contradiction |]. cbn [split_at]. rewrite String.eqb_refl.
      split; [| split; [exact E1 | reflexivity]].
      exists i, [], ch. split; [reflexivity |]. split; [exact E1 |]. intros q' i' r' ch' Q _.
      assert (L : List.length (p ++ [i]) = List.length (q' ++ i' :: r')) by (rewrite Q; reflexivity).
      rewrite !app_length in L. cbn in L. lia.
    + assert (SA : split_at k (enter p ty ch (ancs [] [] T p)) = split_at k (ancs [] [] T p)).
      { unfold enter. destruct (String.eqb ty "AUGMENTED"); [reflexivity |]. cbn [split_at].
        destruct (String.eqb_spec ty k); [contradiction | reflexivity]. }
      rewrite SA. destruct (split_at k (ancs [] [] T p)) as [[[q cc] rest]|].
      * destruct IH as ((i0 & r0 & ch0 & -> & S0 & M) & S1 & R). split; [| auto].
        exists i0, (r0 ++ [i]), ch0. split; [rewrite <- app_assoc; reflexivity |]. split; [exact S0 |].
        intros q' i' r' ch' Q S'. destruct (snoc_eq _ _ _ _ _ Q) as [(<- & _ & _)|(r'' & Q' & _)].
        -- rewrite S' in E1. injection E1 as <- <-. contradiction.
        -- eapply M; eassumption.
      * intros q i' r ch' Q S'. destruct (snoc_eq _ _ _ _ _ Q) as [(<- & _ & _)|(r'' & Q' & _)].
        -- rewrite S' in E1. injection E1 as <- <-. contradiction.
        -- exact (IH _ _ _ _ Q' S').
Qed.

Lemma app_prefix {A} (q q' r r' : list A) : q ++ r = q' ++ r' -> List.length q = List.length q' -> q = q'.
Proof.
  revert q'. induction q as [|a q IH]; intros [|b q'] E L; try discriminate L; [reflexivity |].
  injection E as -> E. injection L as L. rewrite (IH q' E L). reflexivity.
Qed.
Lemma innermost_unique k T p q q' : innermost k T p q -> innermost k T p q' -> q = q'.
Proof.
  intros (i & r & ch & E & S1 & M) (i' & r' & ch' & E' & S2 & M').
  pose proof (M _ _ _ _ E' S2). pose proof (M' _ _ _ _ E S1). eapply app_prefix; [rewrite <- E; exact E' | lia].
Qed.

(* ---------- ke'a ---------- *)

Definition chunk (a : path * string * list tree) : Prop := snd (fst a) = "CHUNKS".
Definition topped (anc : ancestors) : Prop :=
  exists l c cs, anc = l ++ c :: cs /\ Forall (fun a => ~ chunk a) l /\ Forall chunk (c :: cs).

Lemma chunks_in ty : In "CHUNKS" (kids ty) -> In ty ["CHUNKS"].
Proof. apply (kids_parents "CHUNKS"). vm_compute. reflexivity. Qed.

Lemma ancs_topped T : parsed T -> is_nt "CHUNKS" T = true -> forall p s, p <> [] -> subtree T p = Some s ->
  topped (ancs [] [] T p) /\ (is_nt "CHUNKS" s = true -> Forall chunk (ancs [] [] T p)).
Proof.
  intros P C p. induction p as [|i p IH] using rev_ind; intros s NE E; [contradiction |].
  destruct (subtree_snoc T p i s E) as (ty & ch & E1 & N). rewrite (ancs_snoc T p i ty ch s E1 N).
  destruct p as [|j p0] using rev_ind.
  - destruct T as [x|top tch]; [discriminate C |]. apply String.eqb_eq in C. subst top. injection E1 as <- <-.
    split; [exists [], ([], "CHUNKS", tch), []; split; [reflexivity | split; [constructor |]] | intros _]; repeat constructor.
  - clear IHp0. destruct (IH (NT ty ch)) as [(l & c & cs & EA & F & FC) U]; [destruct p0; discriminate | exact E1 |].
    destruct (String.eqb_spec ty "CHUNKS") as [->|NC].
    + specialize (U eq_refl). unfold enter. cbn [String.eqb Ascii.eqb Bool.eqb].
      assert (FA : Forall chunk ((p0 ++ [j], "CHUNKS", ch) :: ancs [] [] T (p0 ++ [j]))) by (constructor; [reflexivity | exact U]).
      split; [| intros _; exact FA]. exists [], (p0 ++ [j], "CHUNKS", ch), (ancs [] [] T (p0 ++ [j])).
      split; [reflexivity |]. split; [constructor | exact FA].
    + split.
      * rewrite EA. unfold enter. destruct (String.eqb_spec ty "AUGMENTED") as [_|A].
        -- exists l, c, cs. auto.
        -- exists ((p0 ++ [j], ty, ch) :: l), c, cs. split; [reflexivity |]. split; [| exact FC]. constructor; [exact NC | exact F].
      * intro CS. exfalso. destruct s as [x|k cc]; [discriminate CS |]. apply String.eqb_eq in CS. subst k.
        destruct (parent_of T (p0 ++ [j]) i "CHUNKS" cc P C E ltac:(discriminate)) as (ty' & ch' & Q & _ & _ & _ & K).
        rewrite E1 in Q. injection Q as <- <-. apply chunks_in in K. destruct K as [K|[]]. congruence.
Qed.

Lemma keha_topped anc x : topped anc ->
  process_keha anc x = Ok (match split_at "RELATIVE_CLAUSE" anc with Some (q, _, _) => [(x, RelLink q); (q, ContainsKeha)] | None => [] end).
Proof.
  intros (l & c & cs & -> & F & FC). induction l as [|[[q' ty] ch'] l IH]; cbn [app].
  - assert (N : forall l, Forall chunk l -> split_at "RELATIVE_CLAUSE" l = None).
    { induction 1 as [|[[q ty] ch] l H FL IHl]; [reflexivity |]. cbn [split_at]. unfold chunk in H. cbn in H. subst ty. exact IHl. }
    rewrite (N _ FC). destruct c as [[q ty] ch]. pose proof (Forall_inv FC) as H. unfold chunk in H. cbn [fst snd] in H. subst ty. reflexivity.
  - cbn [process_keha split_at]. destruct (String.eqb ty "RELATIVE_CLAUSE"); [reflexivity |].
    pose proof (Forall_inv F) as F1. unfold chunk in F1. cbn [fst snd] in F1. destruct (String.eqb_spec ty "CHUNKS"); [contradiction |].
    apply IH. apply (Forall_inv_tail F).
Qed.

Lemma up_split anc : up_to_clauses anc = match split_at "RELATIVE_CLAUSES" anc with Some (_, _, up) => Ok up | None => UB UB_null end.
Proof.
  induction anc as [|[[q ty] ch] up IH]; [reflexivity |]. cbn [up_to_clauses split_at].
  destruct (String.eqb ty "RELATIVE_CLAUSES"); [reflexivity | exact IH].
Qed.

(* ---------- a clause is in a group ---------- *)
Lemma seq_group T : parsed T -> is_nt "CHUNKS" T = true -> forall p k cc, subtree T p = Some (NT k cc) ->
  k = "RELATIVE_CLAUSE_SEQ" \/ k = "RELATIVE_CLAUSE" -> exists q r i ch, p = q ++ i :: r /\ subtree T q = Some (NT "RELATIVE_CLAUSES" ch).
Proof.
  intros P C p. induction p as [|i p IH] using rev_ind; intros k cc E K.
  - destruct T as [x|top tch]; [discriminate C |]. apply String.eqb_eq in C. subst top. injection E as <- <-.
    destruct K; discriminate.
  - assert (A : k <> "AUGMENTED") by (destruct K; subst; discriminate).
    destruct (parent_of T p i k cc P C E A) as (ty & ch & E1 & N & TA & PT & I).
    assert (TY : ty = "RELATIVE_CLAUSE_SEQ" \/ ty = "RELATIVE_CLAUSES").
    { destruct K as [->| ->]; [apply seq_in in I | apply clause_in in I]; cbn [In] in I; intuition congruence. }
    destruct TY as [->| ->].
    + destruct (IH _ _ E1 (or_introl eq_refl)) as (q & r & i' & ch' & -> & S1). exists q, (r ++ [i]), i', ch'.
      rewrite <- app_assoc. auto.
    + exists p, [], i, ch. auto.
Qed.

Lemma clause_found T p cc : parsed T -> is_nt "CHUNKS" T = true -> subtree T p = Some (NT "RELATIVE_CLAUSE" cc) ->
  exists q j k ch rest o, group T p q j k /\ up_to_clauses (ancs [] [] T p) = Ok ((q, k, ch) :: rest) /\
    antecedent_in q k ch = Ok o /\ spec_of q k j o.
Proof.
  intros P C E. pose proof (split_spec "RELATIVE_CLAUSES" T ltac:(discriminate) p _ E) as S1. rewrite up_split.
  destruct (split_at "RELATIVE_CLAUSES" (ancs [] [] T p)) as [[[c rc] rest]|].
  - destruct S1 as (IN & SC & ->). destruct c as [|j q] using rev_ind.
    + destruct T as [x|top tch]; [discriminate C |]. apply String.eqb_eq in C. subst top. discriminate SC.
    + clear IHq. destruct (parent_of T q j _ _ P C SC ltac:(discriminate)) as (k & ch & S2 & N & A & PT & K).
      destruct (antecedent_spec q k ch j rc PT A N) as (o & AO & SO).
      exists q, j, k, ch, (ancs [] [] T q), o. split; [split; eauto |]. split; [| auto].
      rewrite (ancs_snoc T q j k ch _ S2 N). unfold enter. destruct (String.eqb_spec k "AUGMENTED"); [contradiction | reflexivity].
  - exfalso. destruct (seq_group T P C p _ _ E (or_intror eq_refl)) as (q & r & i & ch & -> & S2). exact (S1 q i r ch eq_refl S2).
Qed.

Lemma group_unique T p q j k q' j' k' : group T p q j k -> group T p q' j' k' -> q = q' /\ j = j' /\ k = k'.
Proof.
  intros [I1 [c1 S1]] [I2 [c2 S2]]. pose proof (innermost_unique _ _ _ _ _ I1 I2) as E. apply app_inj_tail in E.
  destruct E as [-> ->]. rewrite S1 in S2. injection S2 as -> ->. auto.
Qed.

(* ---------- goi ---------- *)

Lemma word_cm t x : is_word t x -> t <> T_ZOI -> t <> T_ZO -> t <> T_LOhU -> t <> T_ZEI -> t <> T_BU -> t <> T_BRIVLA -> t <> T_CMENE ->
  cmtest x t = true.
Proof.
  intro W. assert (M : match dat x with N_MARKER _ => False | _ => True end) by (unfold is_word in W; destruct (dat x); auto).
  apply word_value in W. revert W M. unfold value_of, cmtest. destruct (dat x); intros W M; try (exact (False_ind _ M)); clear M; try (exact (False_ind _ W)); try discriminate W; try (injection W; congruence).
  match type of W with (if tok_eqb ?s _ then _ else _) = _ => destruct (tok_eqb s T_FAhO); [discriminate W |] end.
  injection W as ->. intros. destruct t; reflexivity.
Qed.
Lemma attach_cm x : attachable x = true -> cmtest x T_GOI = false.
Proof. unfold attachable, cmtest. destruct (dat x); try reflexivity. destruct selmao; cbn; intro H; try discriminate H; reflexivity. Qed.

Lemma ornament_no_goi r : forall c y, ornament c -> subtree c r = Some (Leaf y) -> cmtest y T_GOI = false.
Proof. intros c y O E. pose proof (at_ornament r c _ O E) as A. apply attach_cm. exact A. Qed.

Lemma goi_place c rest : wordlike T_GOI c -> exists r0,
  cmavo_child 0 (c :: rest) T_GOI = Some (0 :: r0) /\
  forall r, (exists y, subtree c r = Some (Leaf y) /\ cmtest y T_GOI = true) <-> r = r0.
Proof.
  intro WL. destruct (wordlike_inv _ _ WL) as [(x & X & ->)|(bs & x & us & B & X & U & ->)]; clear WL.
  - assert (T : cmtest x T_GOI = true) by (apply word_cm; [exact X | discriminate..]).
    exists []. split.
    + cbn [cmavo_child]. rewrite T. reflexivity.
    + intro r. split; [intros (y & E & _); destruct r; [reflexivity | discriminate E] | intros ->; exists x; auto].
  - assert (T : cmtest x T_GOI = true) by (apply word_cm; [exact X | discriminate..]).
    exists [List.length bs]. split.
    + cbn [cmavo_child]. rewrite String.eqb_refl.
      assert (F : forall i, first_cmavo i (bs ++ Leaf x :: us) T_GOI = Some (i + List.length bs)).
      { clear - B T. induction B as [|b bs O B IH]; intro i; cbn [app first_cmavo List.length].
        - cbn [is_cm]. rewrite T, Nat.add_0_r. reflexivity.
        - replace (is_cm T_GOI b) with false.
          + rewrite IH. f_equal. lia.
          + destruct b as [y|ty ch]; [| reflexivity]. cbn [is_cm]. symmetry. apply attach_cm. exact O. }
      rewrite F. reflexivity.
    + intro r. split.
      * intros (y & E & TY). destruct r as [|i r]; [discriminate E |]. cbn [subtree] in E.
        destruct (nth_error (bs ++ Leaf x :: us) i) as [z|] eqn:N; [| discriminate E].
        destruct (Nat.lt_trichotomy i (List.length bs)) as [L|[L|L]].
        -- exfalso. rewrite nth_error_app1 in N by exact L. apply nth_error_In in N. rewrite Forall_forall in B.
           rewrite (ornament_no_goi r z y (B z N) E) in TY. discriminate TY.
        -- subst i. rewrite nth_error_app2 in N by lia. rewrite Nat.sub_diag in N. injection N as <-.
           destruct r; [reflexivity | discriminate E].
        -- exfalso. rewrite nth_error_app2 in N by lia. replace (i - List.length bs) with (S (i - List.length bs - 1)) in N by lia.
           cbn [nth_error] in N. apply nth_error_In in N. rewrite Forall_forall in U.
           rewrite (ornament_no_goi r z y (U z N) E) in TY. discriminate TY.
      * intros ->. exists x. split; [| exact T]. cbn [subtree]. rewrite nth_error_app2, Nat.sub_diag by lia. reflexivity.
Qed.

Definition goi_shape (pre post : list sym) : bool :=
  match pre with ST T_GOI :: _ => negb (existsb (is_SN "TERM") pre) && negb (existsb (is_SN "TERM") post) | _ => false end.
Lemma sh_goi : forallb (fun ss => if existsb (is_SN "TERM") ss then chk goi_shape "TERM" [] ss else false) (alternatives "TERM_RELATIVE_CLAUSE") = true.
Proof. vm_compute. reflexivity. Qed.
Lemma sh_term : forallb (fun ss => match ss with SN _ :: _ => true | _ => false end) (alternatives "TERM") = true.
Proof. vm_compute. reflexivity. Qed.

Lemma not_in_fits k ss ch cc : k <> "AUGMENTED" -> fitsx ss ch -> existsb (is_SN k) ss = false -> ~ In (NT k cc) ch.
Proof.
  intros A F E I. destruct (fitsx_child ss ch _ F I) as [(k' & cc' & Q & J)|(t & W & J)].
  - injection Q as <- <-. assert (X : existsb (is_SN k) ss = true) by (apply existsb_exists; exists (SN k); split; [exact J | apply String.eqb_refl]).
    congruence.
  - inversion W. congruence.
Qed.

Lemma fits_has k ss ch : fitsx ss ch -> existsb (is_SN k) ss = true -> exists j cc, nth_error ch j = Some (NT k cc).
Proof.
  induction 1 as [|ty ss ch cs F IH|t x ss cs W F IH|t ss cs F IH|t x ss cs W F IH]; cbn [existsb]; intro E; try discriminate E.
  - apply orb_true_iff in E. destruct E as [E|E].
    + apply String.eqb_eq in E. subst. exists 0, ch. reflexivity.
    + destruct (IH E) as (j & cc & N). exists (S j), cc. exact N.
  - destruct (IH E) as (j & cc & N). exists (S j), cc. exact N.
  - apply IH. exact E.
  - destruct (IH E) as (j & cc & N). exists (S j), cc. exact N.
Qed.

Lemma goi_ok p ch : parsed (NT "TERM_RELATIVE_CLAUSE" ch) -> exists w, process_goi_clause p ch = Ok w /\
  forall e, In e w <-> exists r, e = (p ++ r, DontGloss) /\ goi_of_tagged ch r.
Proof.
  intro P. apply parsed_NT in P. destruct P as [X|[(ss & IS & F) PC]]; [discriminate X |].
  pose proof sh_goi as SG. rewrite forallb_forall in SG. specialize (SG ss IS). cbv beta in SG.
  destruct (existsb (is_SN "TERM") ss) eqn:HT; [| discriminate SG].
  destruct (fits_has "TERM" ss ch F HT) as (j & tc & N).
  destruct (fitsx_split "TERM" tc ss ch F ltac:(discriminate) j N) as (ss1 & ss2 & ch1 & ch2 & -> & -> & L & F1 & F2).
  apply chk_sound in SG. cbn [app] in SG.
  destruct ss1 as [|s ss1]; [discriminate SG |]. destruct s as [k|t|t]; try discriminate SG. destruct t; try discriminate SG.
  cbn [goi_shape] in SG. apply andb_true_iff in SG. destruct SG as [G1 G2]. apply negb_true_iff in G1, G2.
  inversion F1 as [| |t c ss0 cs W F1' E1 E2| |]; subst. cbn [app].
  assert (TT : exists k cc tl, tc = NT k cc :: tl).
  { rewrite Forall_forall in PC. assert (PT : parsed (NT "TERM" tc)) by (apply PC; apply in_or_app; right; left; reflexivity).
    apply parsed_NT in PT. destruct PT as [X|[(st & IT & FT) _]]; [discriminate X |].
    pose proof sh_term as ST. rewrite forallb_forall in ST. specialize (ST st IT). destruct st as [|[k|t|t] st]; try discriminate ST.
    inversion FT; subst. eauto. }
  destruct TT as (k & kc & tl & ->).
  destruct (goi_place c (cs ++ NT "TERM" (NT k kc :: tl) :: ch2) W) as (r0 & CM & UQ).
  unfold process_goi_clause. rewrite CM.
  assert (FT : find_nth_child 0 ((c :: cs) ++ NT "TERM" (NT k kc :: tl) :: ch2) 1 "TERM" = Some (List.length (c :: cs))).
  { rewrite (find_none "TERM" _ _ ltac:(discriminate) F1 G1). reflexivity. }
  cbn [app] in FT. rewrite FT.
  assert (NT' : nth_error (c :: cs ++ NT "TERM" (NT k kc :: tl) :: ch2) (List.length (c :: cs)) = Some (NT "TERM" (NT k kc :: tl))) by exact N.
  rewrite NT'.
  assert (GO : forall r, goi_of_tagged (c :: cs ++ NT "TERM" (NT k kc :: tl) :: ch2) r <-> r = 0 :: r0 /\ one_of k ["TERM_TAGGED_SUMTI"; "TAGGED_TERMSET"] = true).
  { intro r. unfold goi_of_tagged. split.
    - intros [(x & E & T & H) (tc' & k' & cc' & I & K)]. split.
      + destruct r as [|i r]; [discriminate H |]. injection H as ->. cbn [subtree nth_error] in E. f_equal. apply UQ. eauto.
      + assert (Q : NT "TERM" (NT k' cc' :: tc') = NT "TERM" (NT k kc :: tl)).
        { change (c :: cs ++ ?l) with ((c :: cs) ++ l) in I. apply in_app_or in I. destruct I as [I|[I|I]]; [| congruence |]; exfalso.
          - exact (not_in_fits "TERM" _ _ _ ltac:(discriminate) F1 G1 I).
          - exact (not_in_fits "TERM" _ _ _ ltac:(discriminate) F2 G2 I). }
        injection Q as -> _ _. unfold one_of. apply existsb_exists. exists k. rewrite String.eqb_refl. split; [| reflexivity].
        destruct K as [->| ->]; cbn [In]; auto.
    - intros [-> O]. split.
      + destruct (proj2 (UQ r0) eq_refl) as (y & E & T). exists y. auto.
      + exists tl, k, kc. split; [right; apply in_or_app; right; left; reflexivity |].
        unfold one_of in O. apply existsb_exists in O. destruct O as (z & Z & Q). apply String.eqb_eq in Q. subst z.
        destruct Z as [Z|[Z|[]]]; auto. }
  destruct (one_of k ["TERM_TAGGED_SUMTI"; "TAGGED_TERMSET"]) eqn:O; eexists; (split; [reflexivity |]); intro e; split.
  - intros [<-|[]]. exists (0 :: r0). split; [reflexivity |]. apply GO. auto.
  - intros (r & -> & G). apply GO in G. destruct G as [-> _]. left. reflexivity.
  - intros [].
  - intros (r & -> & G). apply GO in G. destruct G as [_ G]. discriminate G.
Qed.

(* ---------- all writes ---------- *)

Lemma relative_parsed T : parsed T -> is_nt "CHUNKS" T = true -> exists ws, relative_clause_processing T = Ok ws /\
  forall e, In e ws <->
    (exists p cc q j k b, subtree T p = Some (NT "RELATIVE_CLAUSE" cc) /\ group T p q j k /\ about k j b /\
        (e = (p, Antecedent (extend q b)) \/ e = (extend q b, RequireBrac))) \/
    (exists p x q, subtree T p = Some (Leaf x) /\ is_keha x = true /\ innermost "RELATIVE_CLAUSE" T p q /\
        (e = (p, RelLink q) \/ e = (q, ContainsKeha))) \/
    (exists p ch r, subtree T p = Some (NT "TERM_RELATIVE_CLAUSE" ch) /\ goi_of_tagged ch r /\ e = (p ++ r, DontGloss)).
Proof.
  intros P C. unfold relative_clause_processing. rewrite rel_gscan.
  assert (H : forall q s, subtree T q = Some s -> exists w, rel_here (ancs [] [] T q) q s = Ok w /\ forall e, In e w <->
    (exists cc g j k b, s = NT "RELATIVE_CLAUSE" cc /\ group T q g j k /\ about k j b /\
        (e = (q, Antecedent (extend g b)) \/ e = (extend g b, RequireBrac))) \/
    (exists x g, s = Leaf x /\ is_keha x = true /\ innermost "RELATIVE_CLAUSE" T q g /\ (e = (q, RelLink g) \/ e = (g, ContainsKeha))) \/
    (exists ch r, s = NT "TERM_RELATIVE_CLAUSE" ch /\ goi_of_tagged ch r /\ e = (q ++ r, DontGloss))).
  { intros q s E. destruct s as [x|ty ch]; cbn [rel_here].
    - destruct (is_keha x) eqn:KE.
      + assert (NE : q <> []). { intros ->. destruct T; [discriminate C | discriminate E]. }
        destruct (ancs_topped T P C q _ NE E) as [TO _]. rewrite (keha_topped _ q TO).
        pose proof (split_spec "RELATIVE_CLAUSE" T ltac:(discriminate) q _ E) as SP.
        destruct (split_at "RELATIVE_CLAUSE" (ancs [] [] T q)) as [[[g gc] rest]|].
        * destruct SP as (IN & SC & _). eexists. split; [reflexivity |]. intro e. split.
          -- intros [<-|[<-|[]]]; right; left; exists x, g; auto.
          -- intros [(cc & g' & j & k & b & Q & _)|[(x' & g' & Q & _ & IN' & D)|(ch & r & Q & _)]]; try discriminate Q.
             rewrite (innermost_unique _ _ _ _ _ IN IN'). destruct D as [->| ->]; [left | right; left]; reflexivity.
        * eexists. split; [reflexivity |]. intro e. split; [intros [] |].
          intros [(cc & g' & j & k & b & Q & _)|[(x' & g' & Q & _ & (i & r & ch & Q' & S' & _) & D)|(ch & r & Q & _)]]; try discriminate Q.
          exact (SP _ _ _ _ Q' S').
      + eexists. split; [reflexivity |]. intro e. split; [intros [] |].
        intros [(cc & g' & j & k & b & Q & _)|[(x' & g' & Q & K & _)|(ch & r & Q & _)]]; try discriminate Q.
        injection Q as <-. congruence.
    - destruct (String.eqb_spec ty "RELATIVE_CLAUSE") as [->|NR].
      + destruct (clause_found T q ch P C E) as (g & j & k & gc & rest & o & G & UP & AO & SO).
        unfold process_any_rel_clause. rewrite UP. cbn [obind]. rewrite AO. cbn [obind String.eqb Ascii.eqb Bool.eqb].
        eexists. split; [reflexivity |]. intro e. rewrite app_nil_r. split.
        * intro I. left. destruct o as [a|]; [| destruct I]. destruct (proj1 (SO a) eq_refl) as (b & AB & ->).
          exists ch, g, j, k, b. repeat split; try apply G; auto. destruct I as [<-|[<-|[]]]; auto.
        * intros [(cc & g' & j' & k' & b & _ & G' & AB & D)|[(x' & g' & Q & _)|(ch' & r & Q & _)]]; try discriminate Q.
          destruct (group_unique _ _ _ _ _ _ _ _ G G') as (<- & <- & <-).
          rewrite (proj2 (SO (extend g b)) (ex_intro _ b (conj AB eq_refl))).
          destruct D as [->| ->]; [left | right; left]; reflexivity.
      + cbn [obind]. destruct (String.eqb_spec ty "TERM_RELATIVE_CLAUSE") as [->|NG].
        * assert (PG : parsed (NT "TERM_RELATIVE_CLAUSE" ch)).
          { destruct T as [x|top tch]; [discriminate C |]. apply String.eqb_eq in C. subst top.
            destruct (at_sound q _ _ _ P ltac:(discriminate) E) as [[_ S1]|[O|[tk W]]]; [exact S1 | |].
            - apply ornament_NT in O. destruct O as [O _]. discriminate O.
            - inversion W. }
          destruct (goi_ok q ch PG) as (w & EW & IW). rewrite EW. cbn [obind app]. exists w. split; [reflexivity |].
          intro e. rewrite IW. split.
          -- intros (r & -> & G). right. right. exists ch, r. auto.
          -- intros [(cc & g' & j' & k' & b & Q & _)|[(x' & g' & Q & _)|(ch' & r & Q & G & ->)]]; try discriminate Q.
             injection Q as <-. eauto.
        * cbn [obind app]. eexists. split; [reflexivity |]. intro e. split; [intros [] |].
          intros [(cc & g' & j' & k' & b & Q & _)|[(x' & g' & Q & _)|(ch' & r & Q & G & ->)]]; try discriminate Q;
            injection Q as -> _; congruence. }
  destruct (gscan_found _ rel_here T [] []) as (ws & EW & IW).
  - intros q s E. destruct (H q s E) as (w & EW & _). eauto.
  - exists ws. split; [exact EW |]. intro e. rewrite IW. split.
    + intros (q & s & l & E & HE & I). destruct (H q s E) as (w & EW' & IW'). cbn [app] in HE. rewrite HE in EW'. injection EW' as <-.
      apply IW' in I. destruct I as [(cc & g & j & k & b & -> & R)|[(x & g & -> & R)|(ch & r & -> & R)]].
      * left. exists q, cc, g, j, k, b. auto.
      * right. left. exists q, x, g. auto.
      * right. right. exists q, ch, r. auto.
    + intros [(p & cc & g & j & k & b & E & R)|[(p & x & g & E & R)|(p & ch & r & E & R)]];
        destruct (H p _ E) as (w & EW' & IW'); exists p; eexists; exists w; (split; [exact E |]); (split; [exact EW' |]); apply IW'.
      * left. exists cc, g, j, k, b. auto.
      * right. left. exists x, g. auto.
      * right. right. exists ch, r. auto.
Qed.
