From Coq Require Import String Ascii List NArith Bool Arith Lia.
From Verif Require Import Base TokData CmavoData TokModel TreeModel ErasureProofs ConnectModel ConnectSpec.
Import ListNotations.
Open Scope string_scope.
Open Scope list_scope.

(* ---------------------------------------------------------------- *)
(* searching children *)

Lemma candidates_word ch s x : In x (cmavo_candidates ch s) <-> has_word s ch x.
Proof.
  unfold cmavo_candidates. rewrite in_flat_map. split.
  - intros (c & Hc & Hx). destruct c as [y|ty cc].
    + destruct (cmtest y s) eqn:E; [|destruct Hx]. destruct Hx as [<-|[]]. apply hw_child; auto.
    + destruct (String.eqb ty "AUGMENTED") eqn:E; [|destruct Hx]. apply String.eqb_eq in E. subst ty.
      apply in_flat_map in Hx. destruct Hx as (d & Hd & Hx). destruct d as [y|]; [|destruct Hx].
      destruct (cmtest y s) eqn:E; [|destruct Hx]. destruct Hx as [<-|[]]. eapply hw_augmented; eauto.
  - intros [y Hy E|cc y Hc Hy E].
    + exists (Leaf y). split; [exact Hy|]. rewrite E. left. reflexivity.
    + exists (NT "AUGMENTED" cc). split; [exact Hc|]. rewrite String.eqb_refl. apply in_flat_map.
      exists (Leaf y). split; [exact Hy|]. rewrite E. left. reflexivity.
Qed.

Lemma find_first ch s : match find_nth_cmavo_child ch 1 s with
  | Some x => has_word s ch x | None => forall x, ~ has_word s ch x end.
Proof.
  unfold find_nth_cmavo_child. destruct (cmavo_candidates ch s) as [|x l] eqn:E; cbn [nth_error].
  - intros x H. apply candidates_word in H. rewrite E in H. exact H.
  - apply candidates_word. rewrite E. left. reflexivity.
Qed.

Lemma present_found ch s b : present s ch b -> found (find_nth_cmavo_child ch 1 s) = b.
Proof.
  intro H. assert (F := find_first ch s). destruct (find_nth_cmavo_child ch 1 s) as [x|]; destruct b; cbn [found]; auto.
  - destruct (H x F).
  - destruct H as (x & H). destruct (F x H).
Qed.

Lemma found_present ch s : present s ch (found (find_nth_cmavo_child ch 1 s)).
Proof.
  assert (F := find_first ch s). destruct (find_nth_cmavo_child ch 1 s) as [x|]; cbn [found present]; eauto.
Qed.

Lemma find_child_shift ty ch : forall i, find_nth_child i ch 1 ty = option_map (Nat.add i) (find_nth_child 0 ch 1 ty).
Proof.
  induction ch as [|c ch IH]; intro i; [reflexivity|]. cbn [find_nth_child]. destruct (is_nt ty c).
  - cbn. f_equal. lia.
  - rewrite IH, (IH 1). destruct (find_nth_child 0 ch 1 ty); [|reflexivity]. cbn. f_equal. lia.
Qed.

Lemma is_nt_ok ty c : is_nt ty c = true <-> exists cc, c = NT ty cc.
Proof.
  destruct c as [x|s cc]; cbn; split; try discriminate.
  - intros (cc & H). discriminate.
  - intro E. apply String.eqb_eq in E. subst. eauto.
  - intros (c' & H). injection H as -> ->. apply String.eqb_refl.
Qed.

(* the first child of a type *)

Lemma find_child_ok ty ch : match find_nth_child 0 ch 1 ty with
  | Some j => exists gch, first_nt ty ch j gch
  | None => forall j gch, nth_error ch j <> Some (NT ty gch) end.
Proof.
  induction ch as [|c ch IH]; cbn [find_nth_child].
  - intros [|j] gch; discriminate.
  - destruct (is_nt ty c) eqn:E.
    + apply is_nt_ok in E. destruct E as (cc & ->). exists cc. split; [reflexivity|]. intros; lia.
    + rewrite find_child_shift. destruct (find_nth_child 0 ch 1 ty) as [j|]; cbn [option_map].
      * destruct IH as (gch & H & L). exists gch. split; [exact H|]. intros [|i] c' Hi Hc; cbn in Hc.
        -- injection Hc as <-. exact E.
        -- apply (L i); [lia|exact Hc].
      * intros [|j] gch H; cbn in H; [|exact (IH j gch H)]. injection H as ->. cbn in E. rewrite String.eqb_refl in E. discriminate.
Qed.

Lemma first_nt_det ty ch j gch j' gch' : first_nt ty ch j gch -> first_nt ty ch j' gch' -> j = j' /\ gch = gch'.
Proof.
  intros (H & L) (H' & L'). destruct (Nat.lt_trichotomy j j') as [A|[A|A]].
  - specialize (L' j _ A H). cbn in L'. rewrite String.eqb_refl in L'. discriminate.
  - subst j'. rewrite H in H'. injection H' as ->. auto.
  - specialize (L j' _ A H'). cbn in L. rewrite String.eqb_refl in L. discriminate.
Qed.

Lemma middle_gik_at pp pch j gch : gik_child pch j gch -> middle_gik (Some (pp, pch)) = Ok (pp ++ [j], gch).
Proof.
  intro G. unfold middle_gik. assert (F := find_child_ok "GIK" pch). destruct (find_nth_child 0 pch 1 "GIK") as [k|].
  - destruct F as (g' & F). destruct (first_nt_det _ _ _ _ _ _ F G) as (-> & ->). destruct F as (-> & _). reflexivity.
  - destruct G as (G & _). destruct (F _ _ G).
Qed.

Lemma middle_gik_ok parent gik gch : middle_gik parent = Ok (gik, gch) ->
  exists pp pch j, parent = Some (pp, pch) /\ gik = pp ++ [j] /\ gik_child pch j gch.
Proof.
  unfold middle_gik. destruct parent as [(pp, pch)|]; [|discriminate].
  assert (F := find_child_ok "GIK" pch). destruct (find_nth_child 0 pch 1 "GIK") as [k|]; [|discriminate].
  destruct F as (g' & F). destruct (proj1 F). destruct F as (F & L). rewrite F. intro E. injection E as <- <-.
  exists pp, pch, k. repeat split; auto.
Qed.

(* ---------------------------------------------------------------- *)
(* the table *)

(* function of a meaning *)
Definition names (f : truth_function) (m : meaning) : Prop :=
  match f, m with
  | TR_A, Fun g => g = orb
  | TR_E, Fun g => g = andb
  | TR_O, Fun g => g = Bool.eqb
  | TR_U, Fun g => g = fun p _ => p
  | TR_Q, Question => True
  | _, _ => False
  end.

Lemma table_ok f m n1 c n2 : names f m ->
  exists i, generate_truth_index n1 c n2 f = Ok i /\ truth_text i = Ok (shown n1 c n2 m).
Proof.
  destruct f, m as [g|]; cbn [names]; intro H; try contradiction; try subst g; destruct n1, c, n2;
    eexists; split; reflexivity.
Qed.

(* the words of the table: each is recognised and its function is that of its vowel *)
Definition named_by (tab : list (string * truth_function)) (core : tok) (c : N * string * tok) : bool :=
  let '(_, w, s) := c in
  if tok_eqb s core then
    match lookup_func tab w, last_char w with
    | TR_A, "a"%char | TR_E, "e"%char | TR_O, "o"%char | TR_U, "u"%char | TR_Q, "i"%char => true
    | _, _ => false
    end
  else true.

Definition families : list (tok * list (string * truth_function)) :=
  [(T_GIhA, gihek_words); (T_A, ek_words); (T_JA, jek_words); (T_GUhA, guhek_words); (T_GA, gek_words)].

Lemma tables_named : forallb (fun f => forallb (named_by (snd f) (fst f)) cmavo_cells) families = true.
Proof. vm_compute. reflexivity. Qed.

Lemma word_named core tab x m : In (core, tab) families -> table_word core x -> vowel_meaning (text_of x) = Some m ->
  names (lookup_func tab (text_of x)) m.
Proof.
  intros Hf (c & f & D & E) V. assert (T := tables_named). rewrite forallb_forall in T. specialize (T _ Hf).
  cbn [fst snd] in T. rewrite forallb_forall in T. unfold text_of in *. rewrite D in *.
  unfold cmavo_word, cmavo_selmao, cmavo_cell in *.
  destruct (find (fun c0 => N.eqb (fst (fst c0)) c) cmavo_cells) as [[[i w] s]|] eqn:F; [|discriminate].
  injection E as ->. apply find_some in F. destruct F as (F & _). specialize (T _ F). unfold named_by in T.
  rewrite tok_eqb_refl in T. unfold vowel_meaning in V.
  destruct (lookup_func tab w); destruct (last_char w) as [[] [] [] [] [] [] [] []]; try discriminate;
    injection V as <-; reflexivity.
Qed.

(* ---------------------------------------------------------------- *)
(* one node *)

Lemma core_key core ch m : core_word core ch m ->
  exists x, find_nth_cmavo_child ch 1 core = Some x /\ table_word core x /\ vowel_meaning (text_of x) = Some m.
Proof.
  intros ((x & Hx) & H). assert (F := find_first ch core). destruct (find_nth_cmavo_child ch 1 core) as [y|].
  - exists y. destruct (H y F). auto.
  - destruct (F x Hx).
Qed.

Lemma names_logical f m : names f m -> f <> TR_OTHER.
Proof. intros H ->. exact H. Qed.

Definition nots (n : option node) := found n.

Lemma after_ok core tab p ch m n1 c n2 : In (core, tab) families -> core_word core ch m ->
  present T_NA ch n1 -> present T_SE ch c -> present T_NAI ch n2 ->
  process_after core tab p ch = Ok [(p, Logical CNP_AFTER (shown n1 c n2 m))].
Proof.
  intros Hf Hc P1 P2 P3. destruct (core_key _ _ _ Hc) as (x & F & T & V). unfold process_after. rewrite F.
  assert (N := word_named _ _ _ _ Hf T V). destruct (table_ok _ _ n1 c n2 N) as (i & E1 & E2).
  assert (G : process_afterthought p ch (lookup_func tab (text_of x)) = Ok [(p, Logical CNP_AFTER (shown n1 c n2 m))]).
  { unfold process_afterthought. rewrite (present_found _ _ _ P1), (present_found _ _ _ P2), (present_found _ _ _ P3).
    rewrite E1. cbn [obind]. rewrite E2. reflexivity. }
  destruct (lookup_func tab (text_of x)); auto. destruct N.
Qed.

Lemma fore_ok core tab pp pch j gch p ch x m n1 c n2 : In (core, tab) families ->
  table_word core x -> vowel_meaning (text_of x) = Some m -> gik_child pch j gch ->
  present T_NAI ch n1 -> present T_SE ch c -> present T_NAI gch n2 ->
  process_fore tab x (Some (pp, pch)) p ch =
    Ok [(p, Logical CNP_GE (shown n1 c n2 m)); (pp ++ [j], Logical CNP_GI (shown n1 c n2 m))].
Proof.
  intros Hf T V G P1 P2 P3. unfold process_fore.
  assert (N := word_named _ _ _ _ Hf T V). destruct (table_ok _ _ n1 c n2 N) as (i & E1 & E2).
  assert (K : process_forethought (Some (pp, pch)) p ch (lookup_func tab (text_of x)) =
    Ok [(p, Logical CNP_GE (shown n1 c n2 m)); (pp ++ [j], Logical CNP_GI (shown n1 c n2 m))]).
  { unfold process_forethought. rewrite (middle_gik_at _ _ _ _ G). cbn [obind].
    rewrite (present_found _ _ _ P1), (present_found _ _ _ P2), (present_found _ _ _ P3).
    rewrite E1. cbn [obind]. rewrite E2. reflexivity. }
  destruct (lookup_func tab (text_of x)); auto. destruct N.
Qed.

(* ---------------------------------------------------------------- *)
(* the traversal *)

Section TreeInd.
  Variable P : tree -> Prop.
  Hypothesis Hleaf : forall x, P (Leaf x).
  Hypothesis Hnt : forall ty ch, Forall P ch -> P (NT ty ch).
  Fixpoint tree_induction (t : tree) : P t :=
    match t with
    | Leaf x => Hleaf x
    | NT ty ch => Hnt ty ch ((fix go (l : list tree) : Forall P l :=
        match l with [] => Forall_nil P | c :: l => Forall_cons c (tree_induction c) (go l) end) ch)
    end.
End TreeInd.

Fixpoint traverse_list (pp : path) (pch : list tree) (i : nat) (l : list tree) : outcome (list write) :=
  match l with
  | [] => Ok []
  | c :: l =>
      do u <- traverse_tree (Some (pp, pch)) (pp ++ [i]) c;
      do v <- traverse_list pp pch (S i) l;
      Ok (u ++ v)
  end.
Lemma traverse_nt parent p ty ch : traverse_tree parent p (NT ty ch) =
  do a <- process_node parent p ty ch; do b <- traverse_list p ch 0 ch; Ok (a ++ b).
Proof.
  cbn [traverse_tree]. destruct (process_node parent p ty ch); cbn [obind]; auto.
  match goal with |- obind (?f 0 ch) _ = _ => set (go := f) end.
  assert (E : forall l i, go i l = traverse_list p ch i l).
  { induction l as [|c l IH]; intro i; [reflexivity|]. cbn [traverse_list]. rewrite <- IH. reflexivity. }
  rewrite E. reflexivity.
Qed.

(* the parent argument of a node of the tree *)
Definition parent_of (top : tree) (p : path) : option (path * list tree) :=
  match rev p with
  | [] => None
  | _ :: r => match subtree top (rev r) with Some (NT _ ch) => Some (rev r, ch) | _ => None end
  end.

Lemma parent_root top : parent_of top [] = None.
Proof. reflexivity. Qed.
Lemma parent_child top p i : parent_of top (p ++ [i]) =
  match subtree top p with Some (NT _ ch) => Some (p, ch) | _ => None end.
Proof. unfold parent_of. rewrite rev_app_distr. cbn [rev app]. rewrite rev_involutive. reflexivity. Qed.

Lemma subtree_app t : forall p q, subtree t (p ++ q) =
  match subtree t p with Some u => subtree u q | None => None end.
Proof.
  intros p. revert t. induction p as [|i p IH]; intros t q; [reflexivity|]. cbn [app subtree].
  destruct t; [reflexivity|]. destruct (nth_error ch i); auto.
Qed.

Lemma subtree_child t p ty ch i c : subtree t p = Some (NT ty ch) -> nth_error ch i = Some c ->
  subtree t (p ++ [i]) = Some c.
Proof. intros E H. rewrite subtree_app, E. cbn [subtree]. rewrite H. reflexivity. Qed.

(* a write comes from the node it is made at *)
Definition written (top : tree) (w : write) : Prop :=
  exists r ty ch ws, subtree top r = Some (NT ty ch) /\
    process_node (parent_of top r) r ty ch = Ok ws /\ In w ws.

Lemma traverse_writes top : forall t p ws, subtree top p = Some t ->
  traverse_tree (parent_of top p) p t = Ok ws ->
  (forall w, In w ws -> written top w) /\
  (forall q ty ch, subtree t q = Some (NT ty ch) -> exists ws',
     process_node (parent_of top (p ++ q)) (p ++ q) ty ch = Ok ws' /\ incl ws' ws).
Proof.
  intro t. induction t as [x|ty ch IH] using tree_induction; intros p ws Hp E.
  - cbn [traverse_tree] in E. injection E as <-. split; [intros w []|]. intros [|i q] ty ch H; discriminate.
  - rewrite traverse_nt in E. destruct (process_node (parent_of top p) p ty ch) as [a| | | |] eqn:Ea; try discriminate.
    cbn [obind] in E. destruct (traverse_list p ch 0 ch) as [b| | | |] eqn:Eb; try discriminate. cbn [obind] in E.
    injection E as <-.
    assert (L : forall l i b, (forall k c, nth_error l k = Some c -> nth_error ch (i + k) = Some c) ->
      Forall (fun t => forall p ws, subtree top p = Some t -> traverse_tree (parent_of top p) p t = Ok ws ->
        (forall w, In w ws -> written top w) /\
        (forall q ty ch, subtree t q = Some (NT ty ch) -> exists ws',
           process_node (parent_of top (p ++ q)) (p ++ q) ty ch = Ok ws' /\ incl ws' ws)) l ->
      traverse_list p ch i l = Ok b ->
      (forall w, In w b -> written top w) /\
      (forall k c q ty0 ch0, nth_error l k = Some c -> subtree c q = Some (NT ty0 ch0) -> exists ws',
         process_node (parent_of top (p ++ (i + k)%nat :: q)) (p ++ (i + k)%nat :: q) ty0 ch0 = Ok ws' /\ incl ws' b)).
    { clear Eb b IH. induction l as [|c l IHl]; intros i b Hl HF E.
      - cbn in E. injection E as <-. split; [intros w []|]. intros [|k] c q ty0 ch0 H; discriminate.
      - cbn [traverse_list] in E. inversion HF as [|? ? Hc HF']; subst.
        assert (Sc : subtree top (p ++ [i]) = Some c).
        { eapply subtree_child; [exact Hp|]. replace i with (i + 0)%nat by lia. apply Hl. reflexivity. }
        assert (Pc : parent_of top (p ++ [i]) = Some (p, ch)) by (rewrite parent_child, Hp; reflexivity).
        rewrite <- Pc in E.
        destruct (traverse_tree (parent_of top (p ++ [i])) (p ++ [i]) c) as [u| | | |] eqn:Eu; try discriminate. cbn [obind] in E.
        rewrite Pc in Eu. destruct (traverse_list p ch (S i) l) as [v| | | |] eqn:Ev; try discriminate. cbn [obind] in E.
        injection E as <-. rewrite <- Pc in Eu. destruct (Hc _ _ Sc Eu) as (H1 & H2).
        destruct (IHl (S i) v) as (H3 & H4); auto.
        { intros k c' Hk. replace (S i + k)%nat with (i + S k)%nat by lia. apply Hl. exact Hk. }
        split.
        + intros w Hw. apply in_app_or in Hw. destruct Hw; auto.
        + intros [|k] c' q ty0 ch0 Hk Hq; cbn in Hk.
          * injection Hk as <-. replace (i + 0)%nat with i by lia. destruct (H2 q ty0 ch0 Hq) as (ws' & E' & I').
            rewrite <- app_assoc in E'. cbn [app] in E'. exists ws'. split; [exact E'|]. apply incl_appl. exact I'.
          * replace (i + S k)%nat with (S i + k)%nat by lia. destruct (H4 k c' q ty0 ch0 Hk Hq) as (ws' & E' & I').
            exists ws'. split; [exact E'|]. apply incl_appr. exact I'. }
    destruct (L ch 0 b) as (H1 & H2); auto. split.
    + intros w Hw. apply in_app_or in Hw. destruct Hw as [Hw|Hw]; auto. exists p, ty, ch, a. auto.
    + intros [|i q] ty0 ch0 Hq; cbn [subtree] in Hq.
      * injection Hq as <- <-. rewrite app_nil_r. exists a. split; [exact Ea|]. apply incl_appl, incl_refl.
      * destruct (nth_error ch i) as [c|] eqn:Ec; [|discriminate]. destruct (H2 i c q ty0 ch0 Ec Hq) as (ws' & E' & I').
        exists ws'. split; [exact E'|]. apply incl_appr. exact I'.
Qed.

Lemma connective_at_all ws p c : In (p, c) ws -> (forall c', In (p, c') ws -> c' = c) -> connective_at ws p = Some c.
Proof.
  intros H U. unfold connective_at.
  match goal with |- match ?X with _ => _ end = _ => destruct X as [[q d]|] eqn:F end.
  - apply find_some in F. destruct F as (F & E). cbn [fst] in E. destruct (list_eq_dec Nat.eq_dec q p) as [->|]; [|discriminate].
    apply in_rev in F. f_equal. auto.
  - exfalso. assert (N := find_none _ _ F (p, c)). cbn [fst] in N. destruct (list_eq_dec Nat.eq_dec p p); [|congruence].
    specialize (N (proj1 (in_rev ws (p, c)) H)). discriminate.
Qed.

(* which nodes a node writes to *)
Lemma process_targets parent p ty ch ws q c : process_node parent p ty ch = Ok ws -> In (q, c) ws ->
  q = p \/ (is_forethought (NT ty ch) = true /\ exists pp pch j gch, parent = Some (pp, pch) /\ gik_child pch j gch /\ q = pp ++ [j]).
Proof.
  assert (A : forall core tab ws, process_after core tab p ch = Ok ws -> In (q, c) ws -> q = p).
  { intros core tab ws0. unfold process_after. destruct (find_nth_cmavo_child ch 1 core); [|discriminate].
    assert (G : forall f, process_afterthought p ch f = Ok ws0 -> In (q, c) ws0 -> q = p).
    { intros f. unfold process_afterthought. destruct (generate_truth_index _ _ _ f); try discriminate. cbn [obind].
      destruct (truth_text a); try discriminate. cbn [obind]. intro E. injection E as <-. intros [H|[]]. congruence. }
    destruct (lookup_func tab (text_of n)); eauto. intro E. injection E as <-. intros []. }
  assert (B : forall tab k ws, process_fore tab k parent p ch = Ok ws -> In (q, c) ws ->
    q = p \/ exists pp pch j gch, parent = Some (pp, pch) /\ gik_child pch j gch /\ q = pp ++ [j]).
  { intros tab k ws0. unfold process_fore.
    assert (G : forall f, process_forethought parent p ch f = Ok ws0 -> In (q, c) ws0 ->
       q = p \/ exists pp pch j gch, parent = Some (pp, pch) /\ gik_child pch j gch /\ q = pp ++ [j]).
    { intros f. unfold process_forethought. destruct (middle_gik parent) as [[g gch]| | | |] eqn:M; try discriminate. cbn [obind].
      destruct (generate_truth_index _ _ _ f); try discriminate. cbn [obind].
      destruct (truth_text a); try discriminate. cbn [obind]. intro E. injection E as <-.
      destruct (middle_gik_ok _ _ _ M) as (pp & pch & j & -> & -> & G). intros [H|[H|[]]]; injection H as <- <-; auto.
      right. exists pp, pch, j, gch. auto. }
    destruct (lookup_func tab (text_of k)); eauto. intro E. injection E as <-. intros []. }
  unfold process_node, is_forethought, is_nt. 
  destruct (String.eqb ty "GIHEK"); [intros E H; left; eauto|].
  destruct (String.eqb ty "EK"); [intros E H; left; eauto|].
  destruct (String.eqb ty "JEK" || String.eqb ty "JEK_OPT_KE" || String.eqb ty "JEK_OPT_KEBO"); [intros E H; left; eauto|].
  destruct (String.eqb ty "GUHEK").
  { unfold process_guhek. destruct (find_nth_cmavo_child ch 1 T_GUhA); [|discriminate]. intros E H.
    destruct (B _ _ _ E H); auto. }
  destruct (String.eqb ty "GEK"); [|intro E; injection E as <-; intros []].
  unfold process_gek. destruct (find_nth_cmavo_child ch 1 T_GA).
  { intros E H. destruct (B _ _ _ E H); auto. }
  destruct (find_nth_cmavo_child ch 1 T_GI).
  - unfold process_joik_gi. destruct (middle_gik parent) as [[g gch]| | | |] eqn:M; try discriminate. cbn [obind].
    destruct (find_nth_child 0 ch 1 "JOIK"); [|discriminate]. intro E. injection E as <-.
    destruct (middle_gik_ok _ _ _ M) as (pp & pch & j & -> & -> & G). intros [H|[H|[]]]; injection H as <- <-; auto.
    right. split; [reflexivity|]. exists pp, pch, j, gch. auto.
  - destruct (find_nth_child 0 ch 1 "GIK"); [|discriminate]. destruct (nth_error ch n) as [[|? gch0]|]; try discriminate.
    unfold process_stag_gik. destruct (middle_gik parent) as [[g gch]| | | |] eqn:M; try discriminate. cbn [obind].
    destruct (find_nth_child 0 ch 1 "STAG"); [|discriminate]. intro E. injection E as <-.
    destruct (middle_gik_ok _ _ _ M) as (pp & pch & j & -> & -> & G). intros [H|[H|[]]]; injection H as <- <-; auto.
    right. split; [reflexivity|]. exists pp, pch, j, gch. auto.
Qed.

(* the assignments to a node that is not a gik are its own *)
Lemma own_writes top ws p ty ch : connectives_processing top = Ok ws ->
  subtree top p = Some (NT ty ch) -> ty <> "GIK" -> exists ws', process_node (parent_of top p) p ty ch = Ok ws' /\
    forall c, In (p, c) ws' <-> In (p, c) ws.
Proof.
  intros E Hp N. destruct (traverse_writes top top [] ws eq_refl) as (H1 & H2); [exact E|].
  destruct (H2 p ty ch Hp) as (ws' & E' & I). cbn [app] in E'. exists ws'. split; [exact E'|].
  intro c. split; [apply I|]. intro Hc. destruct (H1 _ Hc) as (r & ty' & ch' & wr & Hr & Er & Hi).
  destruct (process_targets _ _ _ _ _ _ _ Er Hi) as [<-|(_ & pp & pch & j & gch & Ep & G & Eq)].
  - rewrite Hp in Hr. injection Hr as <- <-. rewrite E' in Er. injection Er as <-. exact Hi.
  - exfalso. subst p. unfold parent_of in Ep. destruct (rev r) as [|? r']; [discriminate|].
    destruct (subtree top (rev r')) as [[|? pch']|] eqn:Sr; try discriminate. injection Ep as <- <-.
    rewrite (subtree_child _ _ _ _ _ _ Sr (proj1 G)) in Hp. injection Hp as <- _. congruence.
Qed.

Theorem afterthought_shown top ws p ty ch core m n1 c n2 : connectives_processing top = Ok ws ->
  subtree top p = Some (NT ty ch) -> In (ty, core) afterthought -> core_word core ch m ->
  present T_NA ch n1 -> present T_SE ch c -> present T_NAI ch n2 ->
  connective_at ws p = Some (Logical CNP_AFTER (shown n1 c n2 m)).
Proof.
  intros E Hp Ht Hc P1 P2 P3. destruct (own_writes _ _ _ _ _ E Hp) as (ws' & E' & I).
  { intros ->. repeat (destruct Ht as [Ht|Ht]; [discriminate|]). destruct Ht. }
  assert (K : ws' = [(p, Logical CNP_AFTER (shown n1 c n2 m))]).
  { destruct Ht as [Ht|[Ht|[Ht|[Ht|[Ht|[]]]]]]; injection Ht as <- <-; unfold process_node in E'; cbn [String.eqb Ascii.eqb Bool.eqb orb] in E';
      (erewrite after_ok in E'; eauto; [injection E' as <-; reflexivity|]); unfold families; cbn [In]; auto 8. }
  apply connective_at_all.
  - apply I. rewrite K. left. reflexivity.
  - intros c' H. apply I in H. rewrite K in H. destruct H as [H|[]]. congruence.
Qed.

Lemma fore_node parent p ty core ch m : In (ty, core) forethought -> core_word core ch m ->
  exists x tab, In (core, tab) families /\ table_word core x /\ vowel_meaning (text_of x) = Some m /\
    process_node parent p ty ch = process_fore tab x parent p ch.
Proof.
  intros Ht Hc. destruct (core_key _ _ _ Hc) as (x & F & T & V). exists x.
  destruct Ht as [Ht|[Ht|[]]]; injection Ht as <- <-.
  - exists guhek_words. split; [unfold families; cbn [In]; auto 8|]. split; [auto|]. split; [auto|].
    unfold process_node. cbn [String.eqb Ascii.eqb Bool.eqb orb]. unfold process_guhek. rewrite F. reflexivity.
  - exists gek_words. split; [unfold families; cbn [In]; auto 8|]. split; [auto|]. split; [auto|].
    unfold process_node. cbn [String.eqb Ascii.eqb Bool.eqb orb]. unfold process_gek. rewrite F. reflexivity.
Qed.

(* a node that writes at itself and at the gik of its phrase *)
Lemma two_writes top ws p i j pty pch ty ch gch c1 c2 : connectives_processing top = Ok ws ->
  subtree top p = Some (NT pty pch) -> nth_error pch i = Some (NT ty ch) -> gik_child pch j gch -> ty <> "GIK" ->
  process_node (Some (p, pch)) (p ++ [i]) ty ch = Ok [(p ++ [i], c1); (p ++ [j], c2)] ->
  connective_at ws (p ++ [i]) = Some c1 /\
  ((forall k t, nth_error pch k = Some t -> is_forethought t = true -> k = i) -> connective_at ws (p ++ [j]) = Some c2).
Proof.
  intros E Hp Hi G Ny En.
  assert (Si := subtree_child _ _ _ _ _ _ Hp Hi). assert (Sj := subtree_child _ _ _ _ _ _ Hp (proj1 G)).
  assert (Pi : parent_of top (p ++ [i]) = Some (p, pch)) by (rewrite parent_child, Hp; reflexivity).
  assert (Nij : i <> j).
  { intros ->. rewrite (proj1 G) in Hi. injection Hi as Hi _. congruence. }
  split.
  - destruct (own_writes _ _ _ _ _ E Si Ny) as (ws' & E' & I).
    rewrite Pi in E'. rewrite En in E'. injection E' as <-. apply connective_at_all.
    + apply I. left. reflexivity.
    + intros c' H. apply I in H. destruct H as [H|[H|[]]]; [congruence|]. injection H as H _.
      apply app_inv_head in H. injection H as H. congruence.
  - intro U. destruct (traverse_writes top top [] ws eq_refl) as (H1 & H2); [exact E|].
    destruct (H2 _ _ _ Si) as (wi & Ei & Ii). cbn [app] in Ei. rewrite Pi, En in Ei. injection Ei as <-.
    apply connective_at_all; [apply Ii; right; left; reflexivity|].
    intros c' Hc'. destruct (H1 _ Hc') as (r & ty' & ch' & wr & Hr & Er & Hin).
    destruct (process_targets _ _ _ _ _ _ _ Er Hin) as [<-|(Fo & pp & pch' & j' & gch' & Ep & G' & Eq)].
    + rewrite Sj in Hr. injection Hr as <- <-. cbn in Er. injection Er as <-. destruct Hin.
    + destruct r as [|k r _] using rev_ind; [discriminate|]. rewrite parent_child in Ep.
      destruct (subtree top r) as [[|? pch'']|] eqn:Sr; try discriminate. injection Ep as <- <-.
      apply app_inj_tail in Eq. destruct Eq as (<- & <-). rewrite Hp in Sr. injection Sr as <- <-.
      rewrite subtree_app, Hp in Hr. cbn [subtree] in Hr. destruct (nth_error pch k) as [t|] eqn:Hk; [|discriminate].
      injection Hr as ->. assert (k = i) by (apply (U k _ Hk); exact Fo). subst k.
      rewrite Hi in Hk. injection Hk as <- <-. rewrite Pi, En in Er. injection Er as <-.
      destruct Hin as [H|[H|[]]]; [|congruence]. injection H as H _. apply app_inv_head in H. injection H as H. congruence.
Qed.

Theorem forethought_shown top ws p i j pty pch ty ch core gch m n1 c n2 : connectives_processing top = Ok ws ->
  subtree top p = Some (NT pty pch) -> nth_error pch i = Some (NT ty ch) -> gik_child pch j gch ->
  In (ty, core) forethought -> core_word core ch m ->
  present T_NAI ch n1 -> present T_SE ch c -> present T_NAI gch n2 ->
  connective_at ws (p ++ [i]) = Some (Logical CNP_GE (shown n1 c n2 m)) /\
  ((forall k t, nth_error pch k = Some t -> is_forethought t = true -> k = i) ->
   connective_at ws (p ++ [j]) = Some (Logical CNP_GI (shown n1 c n2 m))).
Proof.
  intros E Hp Hi G Ht Hc P1 P2 P3.
  destruct (fore_node (Some (p, pch)) (p ++ [i]) _ _ _ _ Ht Hc) as (x & tab & Hf & T & V & En).
  rewrite (fore_ok _ _ p pch j gch _ _ _ _ n1 c n2 Hf T V G P1 P2 P3) in En.
  eapply two_writes; eauto. intros ->. destruct Ht as [Ht|[Ht|[]]]; discriminate.
Qed.

Lemma none_found s ch : present s ch false -> find_nth_cmavo_child ch 1 s = None.
Proof. intro H. apply present_found in H. destruct (find_nth_cmavo_child ch 1 s); [discriminate|reflexivity]. Qed.

Lemma first_found ty ch j cc : first_nt ty ch j cc -> find_nth_child 0 ch 1 ty = Some j.
Proof.
  intro G. assert (F := find_child_ok ty ch). destruct (find_nth_child 0 ch 1 ty) as [k|].
  - destruct F as (g' & F). destruct (first_nt_det _ _ _ _ _ _ F G) as (-> & ->). reflexivity.
  - destruct G as (G & _). destruct (F _ _ G).
Qed.

Theorem joik_gi_shown top ws p i j k pty pch ch gch jch n2 : connectives_processing top = Ok ws ->
  subtree top p = Some (NT pty pch) -> nth_error pch i = Some (NT "GEK" ch) -> gik_child pch j gch ->
  present T_GA ch false -> present T_GI ch true -> first_nt "JOIK" ch k jch -> present T_NAI gch n2 ->
  connective_at ws (p ++ [i]) = Some (Other CNP_GE_JOIK (p ++ [i; k]) false n2) /\
  ((forall k t, nth_error pch k = Some t -> is_forethought t = true -> k = i) ->
   connective_at ws (p ++ [j]) = Some (Other CNP_GI_JOIK (p ++ [i; k]) false n2)).
Proof.
  intros E Hp Hi G NG PG J P2. eapply two_writes; eauto; [discriminate|]. cbn [process_node String.eqb Ascii.eqb Bool.eqb orb].
  unfold process_node. cbn [String.eqb Ascii.eqb Bool.eqb orb]. unfold process_gek. rewrite (none_found _ _ NG).
  apply present_found in PG. destruct (find_nth_cmavo_child ch 1 T_GI); [|discriminate].
  unfold process_joik_gi. rewrite (middle_gik_at _ _ _ _ G). cbn [obind]. rewrite (first_found _ _ _ _ J), (present_found _ _ _ P2).
  rewrite <- app_assoc. reflexivity.
Qed.

Theorem tense_gi_shown top ws p i j k pty pch ch gch ogch sch k' n1 n2 : connectives_processing top = Ok ws ->
  subtree top p = Some (NT pty pch) -> nth_error pch i = Some (NT "GEK" ch) -> gik_child pch j gch ->
  present T_GA ch false -> present T_GI ch false -> first_nt "STAG" ch k sch -> first_nt "GIK" ch k' ogch ->
  present T_NAI ogch n1 -> present T_NAI gch n2 ->
  connective_at ws (p ++ [i]) = Some (Other CNP_GE_STAG (p ++ [i; k]) n1 n2) /\
  ((forall k t, nth_error pch k = Some t -> is_forethought t = true -> k = i) ->
   connective_at ws (p ++ [j]) = Some (Other CNP_GI_STAG (p ++ [i; k]) n1 n2)).
Proof.
  intros E Hp Hi G NG NI St Og P1 P2. eapply two_writes; eauto; [discriminate|].
  unfold process_node. cbn [String.eqb Ascii.eqb Bool.eqb orb]. unfold process_gek. rewrite (none_found _ _ NG), (none_found _ _ NI).
  rewrite (first_found _ _ _ _ Og), (proj1 Og).
  unfold process_stag_gik. rewrite (middle_gik_at _ _ _ _ G). cbn [obind]. rewrite (first_found _ _ _ _ St), (present_found _ _ _ P1), (present_found _ _ _ P2).
  rewrite <- app_assoc. reflexivity.
Qed.

(* ---------------------------------------------------------------- *)
(* no assertion fails on a regular tree *)

Lemma after_total core tab p ch : (exists x, has_word core ch x) ->
  exists ws, process_after core tab p ch = Ok ws.
Proof.
  intros (x & H). unfold process_after. assert (F := find_first ch core).
  destruct (find_nth_cmavo_child ch 1 core) as [k|]; [|destruct (F x H)].
  assert (G : forall f, f <> TR_OTHER -> exists ws, process_afterthought p ch f = Ok ws).
  { intros f N. unfold process_afterthought.
    destruct (found (find_nth_cmavo_child ch 1 T_NA)), (found (find_nth_cmavo_child ch 1 T_SE)), (found (find_nth_cmavo_child ch 1 T_NAI)), f;
      try congruence; eexists; reflexivity. }
  destruct (lookup_func tab (text_of k)); eauto; apply G; discriminate.
Qed.

Lemma fore_total tab k pp pch j gch p ch : gik_child pch j gch ->
  exists ws, process_fore tab k (Some (pp, pch)) p ch = Ok ws.
Proof.
  intro H. unfold process_fore.
  assert (G : forall f, f <> TR_OTHER -> exists ws, process_forethought (Some (pp, pch)) p ch f = Ok ws).
  { intros f N. unfold process_forethought. rewrite (middle_gik_at _ _ _ _ H). cbn [obind].
    destruct (found (find_nth_cmavo_child ch 1 T_NAI)), (found (find_nth_cmavo_child ch 1 T_SE)), (found (find_nth_cmavo_child gch 1 T_NAI)), f;
      try congruence; eexists; reflexivity. }
  destruct (lookup_func tab (text_of k)); eauto; apply G; discriminate.
Qed.

Lemma node_total parent p ty ch : regular_node (option_map snd parent) ty ch ->
  exists ws, process_node parent p ty ch = Ok ws.
Proof.
  intros (R1 & R2 & R3 & R4). unfold process_node.
  destruct (String.eqb ty "GIHEK") eqn:E1; [apply String.eqb_eq in E1; apply after_total, R1; subst; unfold afterthought; cbn [In]; auto|].
  destruct (String.eqb ty "EK") eqn:E2; [apply String.eqb_eq in E2; apply after_total, R1; subst; unfold afterthought; cbn [In]; auto|].
  destruct (String.eqb ty "JEK" || String.eqb ty "JEK_OPT_KE" || String.eqb ty "JEK_OPT_KEBO") eqn:E3.
  { rewrite !orb_true_iff, !String.eqb_eq in E3. apply after_total, R1. unfold afterthought.
    destruct E3 as [[->| ->]| ->]; cbn [In]; auto 8. }
  destruct (String.eqb ty "GUHEK") eqn:E4.
  { apply String.eqb_eq in E4. destruct (R3 (or_introl E4)) as (pch & j & gch & Ep & G).
    destruct parent as [(pp, pch0)|]; [|discriminate]. injection Ep as ->. destruct (R2 E4) as (x & Hx).
    unfold process_guhek. assert (F := find_first ch T_GUhA). destruct (find_nth_cmavo_child ch 1 T_GUhA); [|destruct (F x Hx)].
    eapply fore_total; eauto. }
  destruct (String.eqb ty "GEK") eqn:E5; [|eauto].
  apply String.eqb_eq in E5. destruct (R3 (or_intror E5)) as (pch & j & gch & Ep & G).
  destruct parent as [(pp, pch0)|]; [|discriminate]. injection Ep as ->. unfold process_gek.
  assert (F := find_first ch T_GA). destruct (find_nth_cmavo_child ch 1 T_GA) as [k|]; [eapply fore_total; eauto|].
  assert (F2 := find_first ch T_GI). destruct (R4 E5) as [(x & H)|[((x & H) & jj & jch & J)|(N & (jg & gg & Jg) & js & ss & Js)]].
  - destruct (F x H).
  - destruct (find_nth_cmavo_child ch 1 T_GI); [|destruct (F2 x H)]. unfold process_joik_gi.
    rewrite (middle_gik_at _ _ _ _ G). cbn [obind]. assert (K := find_child_ok "JOIK" ch).
    destruct (find_nth_child 0 ch 1 "JOIK"); [eauto|]. destruct (K _ _ J).
  - destruct (find_nth_cmavo_child ch 1 T_GI); [destruct (N _ F2)|]. assert (K := find_child_ok "GIK" ch).
    destruct (find_nth_child 0 ch 1 "GIK") as [k|]; [|destruct (K _ _ Jg)]. destruct K as (gk & K & _). rewrite K.
    unfold process_stag_gik. rewrite (middle_gik_at _ _ _ _ G). cbn [obind]. assert (K' := find_child_ok "STAG" ch).
    destruct (find_nth_child 0 ch 1 "STAG"); [eauto|]. destruct (K' _ _ Js).
Qed.

Theorem connectives_total top : regular top -> exists ws, connectives_processing top = Ok ws.
Proof.
  intros (R0 & R). unfold connectives_processing.
  assert (L : forall t parent p, (forall ty ch, t = NT ty ch -> regular_node (option_map snd parent) ty ch) ->
    (forall q i pty pch ty ch, subtree t q = Some (NT pty pch) -> nth_error pch i = Some (NT ty ch) -> regular_node (Some pch) ty ch) ->
    exists ws, traverse_tree parent p t = Ok ws).
  { intro t. induction t as [x|ty ch IH] using tree_induction; intros parent p H0 H; [exists []; reflexivity|].
    rewrite traverse_nt. destruct (node_total parent p ty ch (H0 _ _ eq_refl)) as (a & ->). cbn [obind].
    assert (Lc : forall l i, (forall k c, nth_error l k = Some c -> exists k', nth_error ch k' = Some c) ->
      Forall (fun t => forall parent p, (forall ty ch, t = NT ty ch -> regular_node (option_map snd parent) ty ch) ->
        (forall q i pty pch ty ch, subtree t q = Some (NT pty pch) -> nth_error pch i = Some (NT ty ch) -> regular_node (Some pch) ty ch) ->
        exists ws, traverse_tree parent p t = Ok ws) l -> exists b, traverse_list p ch i l = Ok b).
    { induction l as [|c l IHl]; intros i Hl HF; [exists []; reflexivity|]. cbn [traverse_list]. inversion HF as [|? ? Hc HF']; subst.
      destruct (Hl 0 c eq_refl) as (k' & Hk').
      destruct (Hc (Some (p, ch)) (p ++ [i])) as (u & ->).
      { intros ty0 ch0 ->. apply (H [] k' ty ch ty0 ch0 eq_refl Hk'). }
      { intros q i0 pty pch ty0 ch0 Hq Hi. apply (H (k' :: q) i0 pty pch ty0 ch0); [|exact Hi]. cbn [subtree]. rewrite Hk'. exact Hq. }
      cbn [obind]. destruct (IHl (S i)) as (v & ->); auto; [|cbn [obind]; eauto].
      intros k c' Hk. apply (Hl (S k) c' Hk). }
    destruct (Lc ch 0) as (b & ->); auto; [eauto|]. cbn [obind]. eauto. }
  apply L; [|exact R]. intros ty ch ->. apply R0. reflexivity.
Qed.
