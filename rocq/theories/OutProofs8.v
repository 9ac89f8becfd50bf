(* The glossed output of parse trees: the theorems on translations and references. *)
From Coq Require Import String Ascii List NArith ZArith Bool Arith Lia.
From Verif Require Import Base TokData CmavoData TokModel StreamModel TreeModel TreeOutModel ErasureProofs GrammarData GramModel GramSpec
  GramProofs PassModel PassSpec PassProofs PassProofs2 ConnectModel ConnectSpec ConnectProofs ConnectProofs2.
From Verif Require Import OutModel OutSpec OutProofs OutProofs2 OutProofs3 OutProofs4 OutProofs7.
Import TransModel(tctx).
Import ListNotations.
Open Scope string_scope.
Open Scope list_scope.

Lemma say_gloss e : say e = gloss_call e.
Proof. destruct e; reflexivity. Qed.

Lemma enclosed_brackets r ty ch b : enclosed ty ch b -> brackets_of r ty ch = b /\ b <> BR_NONE.
Proof.
  assert (L : 2 <= List.length ch -> Nat.ltb 1 (List.length ch) = true) by (intro; apply Nat.ltb_lt; lia).
  intros [[->| ->]|[->| ->]|[->| ->]|[->| ->]|I G|I G| -> G]; (split; [|discriminate]); try reflexivity; unfold brackets_of; rewrite (L G);
    try (cbn [In] in I); repeat (destruct I as [<-|I]; [reflexivity|]); try contradiction; reflexivity.
Qed.

Section TREE.
  Variable translate : string -> option string.
  Variable adv_translate : string -> Z -> tctx -> outcome string.
  Variable translate_unknown : string -> Z -> tctx -> outcome (option string).
  Variable P : props.
  Variable rb : path -> bool.
  Variable t : tree.
  Hypothesis PT : parse_tree t.
  Let T := expand_bahe_ui t.
  Let top := add_bracketing_tags rb T.
  Let out := do_output translate adv_translate translate_unknown P top.
  Notation text := (fun e : path * node => written (p_elidable P (fst e)) (snd e)).

  Theorem out_gloss cs p x : out = Ok cs -> subtree T p = Some (Leaf x) -> by_itself T p ->
    exists e pre post L1 L2, meaning translate adv_translate translate_unknown P (number top) p x e /\
      cs = pre ++ Loj (written (p_elidable P p) x) :: gloss_call e ++ Eols (p_eols P p) :: post /\
      leaves [] T = L1 ++ (p, x) :: L2 /\ shown_words pre = map text L1 /\ shown_words post = map text L2.
  Proof.
    intros H E B. rewrite <- (bare_tags rb T) in E, B. destruct (subtree_asub _ _ _ E) as ([y b n|] & A & Q); inversion Q; subst y.
    pose proof (out_words translate adv_translate translate_unknown P rb t PT cs H) as OW.
    destruct (own_gloss translate adv_translate translate_unknown P top 2 top (parse_obs rb t PT) [] p (ALeaf x b n) cs H A B)
      as (pre & r & post & L1 & L2 & R & -> & LV & SW). cbn [app bare leaves] in R, LV. unfold top in LV at 1. rewrite bare_tags in LV.
    destruct (leaf_calls translate adv_translate translate_unknown P top 2 p x b n r R) as (e & pre' & post' & M & ->).
    pose proof (out_skeleton translate adv_translate translate_unknown P top 2 (ALeaf x b n) SHOW_BOTH p _ (fun _ => I) R) as K.
    apply (f_equal shown_words) in K. rewrite shown_skeleton in K. cbn [lojban] in K. rewrite skel_words in K. cbn [bare leaves map] in K.
    rewrite shown_app in K. cbn [shown_words flat_map] in K.
    assert (SP : shown_words pre' = [] /\ shown_words (say e ++ Eols (p_eols P p) :: post') = []).
    { change (flat_map (fun c : call => match c with Loj s => [s] | _ => [] end)) with shown_words in K. unfold OutProofs2.text in K. cbn [fst snd] in K.
      destruct (shown_words pre') as [|w [|]]; cbn [app] in K.
      - injection K as K. split; [reflexivity|exact K].
      - injection K as _ K. discriminate K.
      - injection K as _ K. discriminate K. }
    destruct SP as [S1 S2]. exists e, (pre ++ pre'), (post' ++ post), L1, L2. split; [exact M|].
    split; [rewrite <- say_gloss, <- !app_assoc; cbn [app]; rewrite <- !app_assoc; reflexivity|]. split; [exact LV|].
    split; [rewrite shown_app, S1, app_nil_r; exact SW|].
    fold T in OW. rewrite LV in OW. rewrite !shown_app in OW. cbn [shown_words flat_map app] in OW.
    change (flat_map (fun c : call => match c with Loj s => [s] | _ => [] end)) with shown_words in OW.
    rewrite S1, S2 in OW. rewrite map_app in OW. cbn [map app fst snd] in OW. rewrite SW in OW. apply app_inv_head in OW.
    injection OW as OW. rewrite shown_app.
    assert (S3 : shown_words post' = []).
    { rewrite shown_app in S2. cbn [shown_words flat_map app] in S2. apply app_eq_nil in S2. exact (proj2 S2). }
    rewrite S3. exact OW.
  Qed.

  Theorem out_enclosed cs q ty ch b : out = Ok cs -> subtree T q = Some (NT ty ch) -> enclosed ty ch b ->
    exists n pre mid post L1 L2, n <> 0 /\ cs = pre ++ Open b n :: mid ++ Close b n :: post /\ nested mid /\
      leaves [] T = L1 ++ leaves q (NT ty ch) ++ L2 /\
      shown_words pre = map text L1 /\ shown_words mid = map text (leaves q (NT ty ch)) /\ shown_words post = map text L2.
  Proof.
    intros H E EN. destruct (bracketed rb t q ty ch E) as (b' & n & ch' & A & M & B & N).
    destruct (enclosed_brackets (rb q) ty ch b EN) as [B' NB]. rewrite B' in B. subst b'.
    destruct (out_extent translate adv_translate translate_unknown P rb t PT cs _ _ H A) as (pre & mid & post & L1 & L2 & -> & NM & LV & S1 & S2 & S3).
    cbn [bare] in LV, S2. rewrite M in LV, S2. exists n, pre, mid, post, L1, L2. apply N in NB. auto 10.
  Qed.

  Variable ws : list rwrite.
  Hypothesis RW : relative_clause_processing T = Ok ws.
  Hypothesis RL : forall p r, In (p, RelLink r) ws -> p_rel_clause_link P p = Some r.
  Hypothesis RA : forall r a, In (r, Antecedent a) ws -> p_antecedent P r = Some a.
  Hypothesis RB : forall q, In (q, RequireBrac) ws -> rb q = true.

  Theorem out_keha cs p c f x r g j k b : out = Ok cs -> subtree T p = Some (Leaf x) -> dat x = N_CMAVO T_KOhA c f -> cmavo_word c = "ke'a" ->
    by_itself T p -> innermost "RELATIVE_CLAUSE" T p r -> group T r g j k -> about k j b -> k <> "SUMTI_TAIL" ->
    exists n s, n <> 0 /\ subtree T (extend g b) = Some s /\
      (exists pre mid post, cs = pre ++ Open BR_CEIL n :: mid ++ Close BR_CEIL n :: post /\
         shown_words mid = map text (leaves (extend g b) s)) /\
      exists pre post, cs = pre ++ Loj (written (p_elidable P p) x) ::
        Eng (or_nothing (translate "ke'a") ++ " #" ++ TransModel.zdec (Z.of_nat n)) :: Eols (p_eols P p) :: post.
  Proof.
    intros H E D W B I G AB NS. assert (K : is_keha x = true).
    { unfold is_keha. rewrite D, W. reflexivity. }
    destruct (keha_number rb t PT P ws RW RL RA RB p x r g j k b E K I G AB NS) as (L & A & ty & n & ch & AT & NN).
    fold T in AT. fold top in AT. exists n, (bare (ANT ty BR_CEIL n ch)). split; [exact NN|].
    split; [rewrite <- (bare_tags rb T); exact (asub_bare _ _ _ AT)|]. split.
    - destruct (out_extent translate adv_translate translate_unknown P rb t PT cs _ _ H AT) as (pre & mid & post & L1 & L2 & -> & _ & _ & _ & M & _).
      exists pre, mid, post. auto.
    - destruct (out_gloss cs p x H E B) as (e & pre & post & L1 & L2 & M & -> & _).
      assert (Q : e = (or_nothing (translate "ke'a") ++ " #" ++ TransModel.zdec (Z.of_nat n))%string).
      { assert (NU : number top (extend g b) = Some n) by (unfold number; rewrite AT; reflexivity).
        clear - D W L A NU M. inversion M; try congruence;
          repeat match goal with H1 : dat _ = N_CMAVO _ _ _ |- _ => rewrite D in H1; injection H1 as ? ? ? end.
        all: try (exfalso; match goal with H2 : ?s = _ \/ ?s = _, H3 : _ = ?s |- _ => rewrite <- H3 in H2; destruct H2 as [H2|H2]; discriminate H2 end).
        exfalso. rewrite (H2 (eq_sym H) ltac:(congruence) r L) in A. discriminate A. }
      exists pre, post. rewrite Q. destruct (or_nothing (translate "ke'a")); reflexivity.
  Qed.
End TREE.

(* for examples: the nodes of a tree *)
Fixpoint nodes (p : path) (t : tree) : list (path * tree) :=
  (p, t) :: match t with
            | Leaf _ => []
            | NT _ ch =>
                (fix go (i : nat) (l : list tree) : list (path * tree) :=
                   match l with [] => [] | c :: l => nodes (p ++ [i]) c ++ go (S i) l end) 0 ch
            end.
Lemma subtree_nodes t : forall p q s, subtree t q = Some s -> In (p ++ q, s) (nodes p t).
Proof.
  induction t as [x|ty ch IH] using tree_induct; intros p q s H.
  - destruct q; [|discriminate H]. inversion H. rewrite app_nil_r. left. reflexivity.
  - destruct q as [|i q]; [inversion H; rewrite app_nil_r; left; reflexivity|]. cbn [subtree] in H. right.
    destruct (nth_error ch i) as [c|] eqn:N; [|discriminate H].
    assert (G : forall l k j, Forall (fun t => forall p q s, subtree t q = Some s -> In (p ++ q, s) (nodes p t)) l -> nth_error l k = Some c ->
      In (p ++ (j + k) :: q, s)
        ((fix go (i : nat) (l : list tree) : list (path * tree) :=
            match l with [] => [] | c :: l => nodes (p ++ [i]) c ++ go (S i) l end) j l)).
    { clear - H. induction l as [|d l IHl]; intros k j F N; [destruct k; discriminate N|]. inversion F; subst. apply in_or_app. destruct k as [|k].
      - inversion N; subst. left. specialize (H2 (p ++ [j]) q s H). rewrite <- app_assoc in H2. rewrite Nat.add_0_r. exact H2.
      - right. replace (j + S k) with (S j + k) by lia. apply IHl; assumption. }
    exact (G ch i 0 IH N).
Qed.
Lemma nodes_check f t q s : forallb (fun e => f (fst e) (snd e)) (nodes [] t) = true -> subtree t q = Some s -> f q s = true.
Proof. intros C H. rewrite forallb_forall in C. exact (C (q, s) (subtree_nodes t [] q s H)). Qed.

(* no node around a place is translated as a whole *)
Definition by_itselfb (t : tree) (p : path) : bool :=
  forallb (fun k => match subtree t (firstn k p) with
                    | Some (NT ty ch) =>
                        negb (as_a_whole ty) &&
                        negb (String.eqb ty "SUMTI_TAIL" && Nat.eqb (nth k p 1) 0 &&
                              match ch with NT k1 _ :: _ => String.eqb k1 "SUMTI_6" | _ => false end)
                    | _ => true
                    end) (seq 0 (List.length p)).
Lemma by_itselfb_ok t p : by_itselfb t p = true -> by_itself t p.
Proof.
  intros C q i r k ch -> S. unfold by_itselfb in C. rewrite forallb_forall in C. specialize (C (List.length q)).
  rewrite firstn_app, Nat.sub_diag, firstn_all, firstn_O, app_nil_r, S, app_nth2, Nat.sub_diag in C by lia. cbn [nth] in C.
  assert (I : In (List.length q) (seq 0 (List.length (q ++ i :: r)))) by (apply in_seq; rewrite app_length; cbn [List.length]; lia).
  apply C in I. apply andb_true_iff in I. destruct I as [I1 I2]. split; [destruct (as_a_whole k); [discriminate I1|reflexivity]|].
  intros (-> & -> & cc & N). destruct ch as [|[|k1 c1] l]; inversion N; subst. discriminate I2.
Qed.

(* the innermost node of a kind, for examples *)
Definition innermostb (k : string) (t : tree) (p : path) (n : nat) : bool :=
  Nat.ltb n (List.length p) && match subtree t (firstn n p) with Some (NT k' _) => String.eqb k' k | _ => false end &&
  forallb (fun i => match subtree t (firstn i p) with Some (NT k' _) => negb (String.eqb k' k) | _ => true end) (seq (S n) (List.length p - S n)).
Lemma innermostb_ok k t p n : innermostb k t p n = true -> innermost k t p (firstn n p).
Proof.
  unfold innermostb. intro C. apply andb_true_iff in C. destruct C as [C C3]. apply andb_true_iff in C. destruct C as [C1 C2].
  apply Nat.ltb_lt in C1. destruct (subtree t (firstn n p)) as [[|k' ch]|] eqn:E; try discriminate C2. apply String.eqb_eq in C2. subst k'.
  destruct (skipn n p) as [|i r] eqn:SK.
  { apply (f_equal (@List.length nat)) in SK. rewrite skipn_length in SK. cbn [List.length] in SK. lia. }
  exists i, r, ch. split; [rewrite <- (firstn_skipn n p) at 1; rewrite SK; reflexivity|]. split; [exact E|].
  intros q' i' r' ch' EP S. rewrite firstn_length. destruct (le_lt_dec (List.length q') n) as [L|L]; [apply Nat.min_glb; [exact L|lia]|].
  exfalso. rewrite forallb_forall in C3. assert (Q : q' = firstn (List.length q') p).
  { rewrite EP, firstn_app, Nat.sub_diag, firstn_all, firstn_O, app_nil_r. reflexivity. }
  assert (LP : List.length q' < List.length p) by (rewrite EP, app_length; cbn [List.length]; lia).
  specialize (C3 (List.length q') ltac:(apply in_seq; lia)). rewrite <- Q, S, String.eqb_refl in C3. discriminate C3.
Qed.

Definition saysb (e : string) (cs : list call) : bool := existsb (fun c => match c with Eng s => String.eqb s e | _ => false end) cs.
Lemma saysb_iff e cs : In (Eng e) cs <-> saysb e cs = true.
Proof.
  unfold saysb. rewrite existsb_exists. split.
  - intro I. exists (Eng e). rewrite String.eqb_refl. auto.
  - intros (c & I & Q). destruct c; try discriminate Q. apply String.eqb_eq in Q. subst. exact I.
Qed.
Definition showsb (w : string) (cs : list call) : bool := existsb (String.eqb w) (shown_words cs).
Lemma showsb_ok w cs : showsb w cs = true -> In (Loj w) cs.
Proof.
  unfold showsb. intro E. apply existsb_exists in E. destruct E as (x & I & Q). apply String.eqb_eq in Q. subst x. unfold shown_words in I.
  apply in_flat_map in I. destruct I as (c & I & J). destruct c; try contradiction. destruct J as [->|[]]. exact I.
Qed.
