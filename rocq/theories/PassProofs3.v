(* Proofs about errorscan.c, and the passes after expansion. *)
From Coq Require Import String List NArith Bool Arith Lia.
From Verif Require Import Base TokData CmavoData TokModel StreamModel TreeModel TreeOutModel GrammarData GramModel GramSpec
  GramProofs PassModel PassSpec PassProofs PassProofs2.
Import ListNotations.
Open Scope string_scope.
Open Scope list_scope.

Definition err_here (anc : ancestors) (p : path) (x : tree) : outcome (list path) :=
  match x with
  | NT "FRAGMENT" [] => Abort
  | NT "FRAGMENT" (c :: _) => Ok (if is_nt "TERMS" c then [p] else [])
  | _ => Ok []
  end.
Definition elist (p : path) :=
  fix go (i : nat) (l : list tree) : outcome (list path) :=
    match l with
    | [] => Ok []
    | c :: l => do u <- error_scan (p ++ [i]) c; do v <- go (S i) l; Ok (u ++ v)
    end.
Lemma err_here_not anc p ty ch : ty <> "FRAGMENT" -> err_here anc p (NT ty ch) = Ok [].
Proof.
  intro N. cbn [err_here].
  repeat (match goal with
  | |- match ?s with EmptyString => _ | String _ _ => _ end = _ => destruct s as [|[[] [] [] [] [] [] [] []]]; try reflexivity
  end).
  exfalso. apply N. reflexivity.
Qed.
Lemma err_gscan x : forall anc p, error_scan p x = gscan _ err_here anc p x.
Proof.
  induction x as [x|ty ch IH] using tree_ind2; intros anc p; [reflexivity |].
  cbn [error_scan gscan]. fold (elist p). fold (glist _ err_here (enter p ty ch anc) p).
  assert (E : forall l, Forall (fun x => forall anc p, error_scan p x = gscan _ err_here anc p x) l ->
               forall n, elist p n l = glist _ err_here (enter p ty ch anc) p n l).
  { induction 1 as [|c l H F IHF]; intro n; [reflexivity |]. cbn [elist glist]. rewrite (H (enter p ty ch anc)).
    fold (elist p). fold (glist _ err_here (enter p ty ch anc) p). rewrite IHF. reflexivity. }
  rewrite (E ch IH). destruct (glist _ _ _ _ _ _); cbn [obind]; try reflexivity.
  destruct (String.eqb_spec ty "FRAGMENT") as [->|N].
  - cbn [err_here]. destruct ch as [|c ch]; reflexivity.
  - rewrite err_here_not by exact N. cbn [obind]. rewrite app_nil_r. reflexivity.
Qed.

Lemma sh_fragment : forallb (existsb (fun s => match s with SE _ => false | _ => true end)) (alternatives "FRAGMENT") = true.
Proof. vm_compute. reflexivity. Qed.
Lemma fits_nonempty ss ch : fitsx ss ch -> existsb (fun s => match s with SE _ => false | _ => true end) ss = true -> ch <> [].
Proof. induction 1; cbn [existsb orb]; intro E; try discriminate. auto. Qed.

Lemma errors_parsed T : parsed T -> is_nt "CHUNKS" T = true -> exists ws, error_scan [] T = Ok ws /\
  forall p, In p ws <-> exists tc ch, subtree T p = Some (NT "FRAGMENT" (NT "TERMS" tc :: ch)).
Proof.
  intros P C. rewrite (err_gscan T []).
  assert (H : forall q s, subtree T q = Some s -> exists w, err_here (ancs [] [] T q) ([] ++ q) s = Ok w /\
     forall p, In p w <-> p = q /\ exists tc ch, s = NT "FRAGMENT" (NT "TERMS" tc :: ch)).
  { intros q s E. destruct s as [x|ty ch].
    - exists []. split; [reflexivity |]. intro p. split; [intros [] | intros (_ & tc & ch & Q); discriminate Q].
    - destruct (String.eqb_spec ty "FRAGMENT") as [->|N].
      + assert (PG : parsed (NT "FRAGMENT" ch)).
        { destruct T as [x|top tch]; [discriminate C |]. apply String.eqb_eq in C. subst top.
          destruct (at_sound q _ _ _ P ltac:(discriminate) E) as [[_ S1]|[O|[tk W]]]; [exact S1 | |].
          - apply ornament_NT in O. destruct O as [O _]. discriminate O.
          - inversion W. }
        apply parsed_NT in PG. destruct PG as [X|[(ss & IS & F) _]]; [discriminate X |].
        pose proof sh_fragment as SF. rewrite forallb_forall in SF. pose proof (fits_nonempty ss ch F (SF ss IS)) as NE.
        destruct ch as [|c ch]; [contradiction |]. cbn [err_here]. eexists. split; [reflexivity |]. intro p. cbn [app].
        destruct c as [x|k cc]; cbn [is_nt].
        * split; [intros [] | intros (_ & tc & ch' & Q); discriminate Q].
        * destruct (String.eqb_spec k "TERMS") as [->|NK].
          -- split; [intros [<-|[]]; eauto | intros (-> & _); left; reflexivity].
          -- split; [intros [] | intros (_ & tc & ch' & Q); injection Q as -> _ _; contradiction].
      + rewrite err_here_not by exact N. exists []. split; [reflexivity |]. intro p.
        split; [intros [] | intros (_ & tc & ch' & Q); injection Q as -> _; contradiction]. }
  destruct (gscan_found _ err_here T [] []) as (ws & EW & IW).
  - intros q s E. destruct (H q s E) as (w & EW & _). eauto.
  - exists ws. split; [exact EW |]. intro p. rewrite IW. split.
    + intros (q & s & l & E & HE & I). destruct (H q s E) as (w & EW' & IW'). rewrite HE in EW'. injection EW' as <-.
      apply IW' in I. destruct I as (-> & tc & ch & ->). eauto.
    + intros (tc & ch & E). destruct (H p _ E) as (w & EW' & IW'). exists p. eexists. exists w.
      split; [exact E |]. split; [exact EW' |]. apply IW'. eauto.
Qed.

(* ---------- on the trees of the parser ---------- *)
Lemma tenses_tree t : parse_tree t -> let T := expand_bahe_ui t in
  exists ws, tense_processing T = Ok ws /\
    forall p c, In (p, c) ws <-> exists s, subtree T p = Some s /\ tense_place s /\
      (if free_after (around T p) then None else if tag_in_jai (around T p) then Some TSC_JAITAG else tense_role (around T p)) = Some c.
Proof. intro P. destruct (parse_expand t P). apply tenses_parsed; assumption. Qed.

Lemma tenses_role t ws p s c : parse_tree t -> tense_processing (expand_bahe_ui t) = Ok ws ->
  subtree (expand_bahe_ui t) p = Some s -> tense_place s ->
  free_after (around (expand_bahe_ui t) p) = false -> tag_in_jai (around (expand_bahe_ui t) p) = false ->
  In (p, c) ws <-> tense_role (around (expand_bahe_ui t) p) = Some c.
Proof.
  intros P E S T F J. destruct (tenses_tree t P) as (ws' & E' & I). rewrite E in E'. injection E' as <-. rewrite I. split.
  - intros (s' & S' & _ & X). rewrite F, J in X. exact X.
  - intro X. exists s. rewrite F, J. auto.
Qed.

Lemma relative_tree t : parse_tree t -> let T := expand_bahe_ui t in
  exists ws, relative_clause_processing T = Ok ws /\
  forall e, In e ws <->
    (exists p cc q j k b, subtree T p = Some (NT "RELATIVE_CLAUSE" cc) /\ group T p q j k /\ about k j b /\
        (e = (p, Antecedent (extend q b)) \/ e = (extend q b, RequireBrac))) \/
    (exists p x q, subtree T p = Some (Leaf x) /\ is_keha x = true /\ innermost "RELATIVE_CLAUSE" T p q /\
        (e = (p, RelLink q) \/ e = (q, ContainsKeha))) \/
    (exists p ch r, subtree T p = Some (NT "TERM_RELATIVE_CLAUSE" ch) /\ goi_of_tagged ch r /\ e = (p ++ r, DontGloss)).
Proof. intro P. destruct (parse_expand t P). apply relative_parsed; assumption. Qed.

Lemma relative_antecedent t ws p cc : parse_tree t -> let T := expand_bahe_ui t in
  relative_clause_processing T = Ok ws -> subtree T p = Some (NT "RELATIVE_CLAUSE" cc) ->
  exists q j k, group T p q j k /\ forall a, In (p, Antecedent a) ws <-> exists b, about k j b /\ a = extend q b.
Proof.
  intros P T E S. destruct (parse_expand t P) as [PT C]. destruct (relative_parsed T PT C) as (ws' & E' & I).
  rewrite E in E'. injection E' as <-.
  destruct (clause_found T p cc PT C S) as (q & j & k & ch & rest & o & G & _ & _ & _). exists q, j, k. split; [exact G |].
  intro a. rewrite I. split.
  - intros [(p' & cc' & q' & j' & k' & b & S' & G' & AB & [D|D])|[(p' & x & g & S' & _ & _ & [D|D])|(p' & ch' & r & S' & _ & D)]]; try discriminate D.
    injection D as <- ->. destruct (group_unique _ _ _ _ _ _ _ _ G G') as (<- & <- & <-). eauto.
  - intros (b & AB & ->). left. exists p, cc, q, j, k, b. auto.
Qed.

Lemma relative_keha t ws p x : parse_tree t -> let T := expand_bahe_ui t in
  relative_clause_processing T = Ok ws -> subtree T p = Some (Leaf x) -> is_keha x = true ->
  forall q, (In (p, RelLink q) ws <-> innermost "RELATIVE_CLAUSE" T p q) /\
            (In (p, RelLink q) ws -> In (q, ContainsKeha) ws).
Proof.
  intros P T E S K q. destruct (parse_expand t P) as [PT C]. destruct (relative_parsed T PT C) as (ws' & E' & I).
  rewrite E in E'. injection E' as <-.
  assert (A : In (p, RelLink q) ws <-> innermost "RELATIVE_CLAUSE" T p q).
  { rewrite I. split.
    - intros [(p' & cc' & q' & j' & k' & b & S' & G' & AB & [D|D])|[(p' & x' & g & S' & _ & IN & [D|D])|(p' & ch' & r & S' & _ & D)]]; try discriminate D.
      injection D as <- <-. exact IN.
    - intro IN. right. left. exists p, x, q. auto. }
  split; [exact A |]. intro L. apply A in L. apply I. right. left. exists p, x, q. auto.
Qed.

Lemma errors_tree t : parse_tree t -> exists ws, error_scan [] (expand_bahe_ui t) = Ok ws /\
  forall p, In p ws <-> exists tc ch, subtree (expand_bahe_ui t) p = Some (NT "FRAGMENT" (NT "TERMS" tc :: ch)).
Proof. intro P. destruct (parse_expand t P). apply errors_parsed; assumption. Qed.
