(* Proofs about tenses.c. *)
From Coq Require Import String List NArith Bool Arith Lia.
From Verif Require Import Base TokData CmavoData TokModel StreamModel TreeModel TreeOutModel GrammarData GramModel GramSpec
  GramProofs PassModel PassSpec.
Import ListNotations.
Open Scope string_scope.
Open Scope list_scope.

Lemma tense_place_iff s : tense_place s <-> tense_node s = true.
Proof.
  destruct s as [x|ty ch]; cbn [tense_place tense_node].
  - destruct (dat x); try (split; [intros [] | discriminate]). cbn [existsb].
    split.
    + intros [->|[->|[->|[->| ->]]]]; reflexivity.
    + destruct selmao; cbn; intro H; try discriminate H; tauto.
  - unfold one_of. cbn [existsb]. rewrite !orb_true_iff, !String.eqb_eq. split; [tauto |]. intros [H|[H|[H|H]]]; auto; discriminate.
Qed.

(* ---------- the code by kinds of nodes only ---------- *)

Definition code_step (ty : string) (v : outcome (option tense_ctx)) : outcome (option tense_ctx) :=
  if one_of ty ["TERM_TAGGED_SUMTI"; "TAGGED_TERMSET"] then Ok (Some TSC_TERM)
  else if one_of ty ["TEXT_1C"; "I_JJ_STAG_BO"; "GIHEK_STAG_KE"; "GIHEK_STAG_BO"; "JOIK_EK_KE"; "JOIK_EK_STAG_BO";
                     "JOIK_STAG_KE"; "JOIK_JEK_STAG_BO"] then Ok (Some TSC_LINK)
  else if one_of ty ["SUMTI_5B"; "SUMTI_TAIL_1"] then Ok (Some TSC_NOUN)
  else if one_of ty ["STATEMENT_3"; "TERM_FLOATING_TENSE"; "GEK_SENTENCE"; "MAIN_SELBRI"; "METALINGUISTIC_MAIN_SELBRI"]
  then Ok (Some TSC_SELBRI)
  else if String.eqb ty "JAI_TAG_TU2" then Ok (Some TSC_JAITAG)
  else if one_of ty ["MEX_OPERATOR"; "OPERAND_3"; "COMPLEX_TENSE_MODAL"; "FREE"] then Ok None
  else if String.eqb ty "GEK" then Ok (Some TSC_CONNECT)
  else if String.eqb ty "CHUNKS" then Abort
  else v.
Definition ctc (l : list string) : outcome (option tense_ctx) := fold_right code_step (UB UB_null) l.
Definition types (anc : ancestors) : list string := map (fun a => snd (fst a)) anc.

Lemma check_ctc anc : check_tense_context anc = ctc (types anc).
Proof. induction anc as [|[[q ty] ch] up IH]; [reflexivity |]. cbn [check_tense_context types map ctc fold_right fst snd].
  unfold code_step at 1. fold (types up). fold (ctc (types up)). rewrite IH. reflexivity. Qed.

(* ---------- the analysis ---------- *)

Definition V : Type := (outcome (option tense_ctx) * (option tense_ctx * option tense_ctx) * (bool * bool * bool))%type.
Record class : Set := Class { c_term : bool; c_link : bool; c_noun : bool; c_sel : bool; c_jai : bool; c_none : bool; c_gek : bool;
  c_top : bool; c_tag : bool; c_selp : bool; c_main : bool; c_float : bool; c_cplx : bool; c_selbri : bool }.
Definition classify (ty : string) : class :=
  Class (one_of ty ["TERM_TAGGED_SUMTI"; "TAGGED_TERMSET"])
    (one_of ty ["TEXT_1C"; "I_JJ_STAG_BO"; "GIHEK_STAG_KE"; "GIHEK_STAG_BO"; "JOIK_EK_KE"; "JOIK_EK_STAG_BO";
                "JOIK_STAG_KE"; "JOIK_JEK_STAG_BO"])
    (one_of ty ["SUMTI_5B"; "SUMTI_TAIL_1"])
    (one_of ty ["STATEMENT_3"; "TERM_FLOATING_TENSE"; "GEK_SENTENCE"; "MAIN_SELBRI"; "METALINGUISTIC_MAIN_SELBRI"])
    (String.eqb ty "JAI_TAG_TU2")
    (one_of ty ["MEX_OPERATOR"; "OPERAND_3"; "COMPLEX_TENSE_MODAL"; "FREE"])
    (String.eqb ty "GEK") (String.eqb ty "CHUNKS")
    (among ty tag_parts) (among ty selbri_parts)
    (among ty ["MAIN_SELBRI"; "METALINGUISTIC_MAIN_SELBRI"])
    (among ty ["STATEMENT_3"; "TERM_FLOATING_TENSE"; "GEK_SENTENCE"])
    (String.eqb ty "COMPLEX_TENSE_MODAL") (String.eqb ty "SELBRI").
Definition act (c : class) (v : V) : V :=
  let '(code, (role, srole), (fa, tj, sj)) := v in
  (if c_term c then Ok (Some TSC_TERM) else if c_link c then Ok (Some TSC_LINK) else if c_noun c then Ok (Some TSC_NOUN)
   else if c_sel c then Ok (Some TSC_SELBRI) else if c_jai c then Ok (Some TSC_JAITAG) else if c_none c then Ok None
   else if c_gek c then Ok (Some TSC_CONNECT) else if c_top c then Abort else code,
   (if c_tag c then role else if c_term c then Some TSC_TERM else if c_link c then Some TSC_LINK
    else if c_float c then Some TSC_SELBRI else if c_jai c then Some TSC_JAITAG else if c_gek c then Some TSC_CONNECT
    else if c_selbri c then srole else None,
    if c_selp c then srole else if c_main c then Some TSC_SELBRI else if c_noun c then Some TSC_NOUN else None),
   (if c_cplx c then true else if c_tag c then fa else false,
    if c_tag c then tj else if c_selbri c then sj else false,
    if c_jai c then true else if c_selp c then sj else false)).
Definition step (ty : string) : V -> V := let c := classify ty in fun v => act c v.
Definition v0 : V := (UB UB_null, (None, None), (false, false, false)).

Lemma value_is l : value V v0 step l =
  (ctc l, (tense_role l, selbri_role l), (free_after l, tag_in_jai l, selbri_in_jai l)).
Proof.
  induction l as [|ty up IH]; [reflexivity |].
  unfold value in *. cbn [fold_right]. rewrite IH. reflexivity.
Qed.

Definition ctx_num (c : tense_ctx) : nat :=
  match c with TSC_OTHER => 0 | TSC_SELBRI => 1 | TSC_TERM => 2 | TSC_NOUN => 3 | TSC_LINK => 4 | TSC_CONNECT => 5 | TSC_JAITAG => 6 end.
Definition ceqb (a b : option tense_ctx) : bool :=
  match a, b with Some a, Some b => Nat.eqb (ctx_num a) (ctx_num b) | None, None => true | _, _ => false end.
Lemma ceqb_eq a b : ceqb a b = true -> a = b.
Proof. destruct a as [[]|], b as [[]|]; cbn; intro H; try discriminate H; reflexivity. Qed.
Definition oeqb (a b : outcome (option tense_ctx)) : bool :=
  match a, b with
  | Ok a, Ok b => ceqb a b
  | Abort, Abort => true
  | UB UB_null, UB UB_null => true
  | _, _ => false
  end.
Lemma oeqb_eq a b : oeqb a b = true -> a = b.
Proof.
  destruct a as [a| |[]| |], b as [b| |[]| |]; cbn; intro H; try discriminate H; try reflexivity.
  apply ceqb_eq in H. congruence.
Qed.
Definition veqb (a b : V) : bool :=
  let '(c1, (r1, s1), (f1, t1, j1)) := a in
  let '(c2, (r2, s2), (f2, t2, j2)) := b in
  if oeqb c1 c2 then if ceqb r1 r2 then if ceqb s1 s2 then if eqb f1 f2 then if eqb t1 t2 then eqb j1 j2 else false else false
  else false else false else false.
Lemma veqb_eq a b : veqb a b = true -> a = b.
Proof.
  destruct a as [[c1 [r1 s1]] [[f1 t1] j1]], b as [[c2 [r2 s2]] [[f2 t2] j2]]. unfold veqb.
  destruct (oeqb c1 c2) eqn:E1; [| discriminate]. destruct (ceqb r1 r2) eqn:E2; [| discriminate].
  destruct (ceqb s1 s2) eqn:E3; [| discriminate]. destruct (eqb f1 f2) eqn:E4; [| discriminate].
  destruct (eqb t1 t2) eqn:E5; [| discriminate]. intro E6.
  apply oeqb_eq in E1. apply ceqb_eq in E2, E3. apply eqb_prop in E4, E5, E6. subst. reflexivity.
Qed.

(* the table, found by following the grammar from the top *)
Definition add1 (k : string) (w : V) (t : list (string * list V)) : list (string * list V) :=
  map (fun e => if String.eqb (fst e) k then (fst e, if vin V veqb w (snd e) then snd e else w :: snd e) else e) t.
Fixpoint grow (n : nat) (work : list (string * V)) (t : list (string * list V)) : list (string * list V) :=
  match n with
  | 0 => t
  | S n =>
      match work with
      | [] => t
      | (ty, v) :: work =>
          let '(work, t) := fold_left (fun wt k =>
            let w := step k v in
            if vin V veqb w (poss V (snd wt) k) then wt else ((k, w) :: fst wt, add1 k w (snd wt))) (kids ty) (work, t) in
          grow n work t
      end
  end.
Definition table : list (string * list V) := Eval vm_compute in
  let s := step "CHUNKS" v0 in
  grow 5000 [("CHUNKS", s)] (add1 "CHUNKS" s (map (fun r => (fst r, [])) grammar)).

Lemma table_closed : forallb (row_ok V veqb step table) grammar = true.
Proof. vm_cast_no_check (eq_refl true). Qed.
Lemma table_start : vin V veqb (step "CHUNKS" v0) (poss V table "CHUNKS") = true.
Proof. vm_compute. reflexivity. Qed.

Lemma at_place t p s : parsed t -> is_nt "CHUNKS" t = true -> subtree t p = Some s -> known V v0 step table (around t p) s.
Proof. apply (walk_top V veqb veqb_eq v0 step table table_closed table_start). Qed.

(* what is found where a tense is *)
Definition good (v : V) : bool :=
  let '(code, (role, _), (fa, tj, _)) := v in
  oeqb code (Ok (if fa then None else if tj then Some TSC_JAITAG else role)).
Definition tense_tok (t : tok) : bool := existsb (tok_eqb t) [T_ZAhO; T_VA; T_FAhA; T_BAI; T_PU].
Definition tense_kinds : list string := ["TIME_OFFSET"; "SPACE_INT_PROP"; "INTERVAL_PROPERTY"].

Lemma good_words : forallb (fun r =>
  if existsb (existsb (fun s => match s with ST t | SE t => tense_tok t | _ => false end)) (snd r)
  then forallb good (poss V table (fst r)) else true) grammar = true.
Proof. vm_compute. reflexivity. Qed.
Lemma good_kinds : forallb (fun k => forallb good (poss V table k)) tense_kinds = true.
Proof. vm_compute. reflexivity. Qed.

Definition goodl (l : list string) : Prop :=
  ctc l = Ok (if free_after l then None else if tag_in_jai l then Some TSC_JAITAG else tense_role l).

Lemma good_value l : good (value V v0 step l) = true -> goodl l.
Proof. rewrite value_is. unfold good, goodl. apply oeqb_eq. Qed.

Lemma attach_not_tense x : attachable x = true -> tense_node (Leaf x) = false.
Proof.
  unfold attachable, tense_node. destruct (dat x); try reflexivity.
  destruct selmao; cbn; intro H; try discriminate H; reflexivity.
Qed.

Lemma word_tense tk x : is_word tk x -> tense_node (Leaf x) = true -> tense_tok tk = true.
Proof.
  intro W. apply word_value in W. revert W. unfold value_of, tense_node, tense_tok. destruct (dat x); try discriminate.
  destruct (tok_eqb selmao T_FAhO) eqn:F; [discriminate |]. intros [= ->]. auto.
Qed.

Lemma tense_good t p s : parsed t -> is_nt "CHUNKS" t = true -> subtree t p = Some s -> tense_node s = true ->
  goodl (around t p).
Proof.
  intros P C E T. pose proof (at_place t p s P C E) as K. destruct s as [x|k ch]; cbn [known] in K.
  - destruct K as [A|(ty & up & tk & -> & I & W & J)]; [rewrite (attach_not_tense x A) in T; discriminate T |].
    apply good_value. pose proof (word_tense tk x W T) as TT.
    pose proof good_words as GW. rewrite forallb_forall in GW.
    unfold toks in J. apply in_flat_map in J. destruct J as (ss & IS & J).
    unfold alternatives in IS. apply in_flat_map in IS. destruct IS as (r & RI & IS).
    destruct (String.eqb_spec (fst r) ty) as [Ety|Ety]; [| destruct IS]. subst ty.
    specialize (GW r RI). cbv beta in GW.
    replace (existsb (existsb _) (snd r)) with true in GW.
    + rewrite forallb_forall in GW. apply GW. exact I.
    + symmetry. apply existsb_exists. exists ss. split; [exact IS |]. apply in_flat_map in J. destruct J as (sy & SI & J).
      apply existsb_exists. exists sy. split; [exact SI |].
      destruct sy as [k'|t'|t']; [destruct J | destruct J as [->|[]]; exact TT | destruct J as [->|[]]; exact TT].
  - destruct K as [->|I]; [discriminate T |].
    assert (G : goodl (k :: around t p)).
    { apply good_value. pose proof good_kinds as GK. rewrite forallb_forall in GK.
      assert (KI : In k tense_kinds).
      { cbn [tense_node] in T. unfold one_of in T. apply existsb_exists in T. destruct T as (y & Y & Q).
        apply String.eqb_eq in Q. subst y. exact Y. }
      specialize (GK k KI). rewrite forallb_forall in GK. apply GK. exact I. }
    cbn [tense_node] in T. unfold one_of in T. apply existsb_exists in T. destruct T as (y & Y & Q).
    apply String.eqb_eq in Q. subst y. destruct Y as [<-|[<-|[<-|[]]]]; exact G.
Qed.

(* ---------- scan_tenses ---------- *)

Definition scan_list (anc : ancestors) (p : path) :=
  fix go (i : nat) (l : list tree) : outcome (list twrite) :=
    match l with
    | [] => Ok []
    | c :: l => do u <- scan_tenses anc (p ++ [i]) c; do v <- go (S i) l; Ok (u ++ v)
    end.

Lemma types_enter p ty ch anc : types (enter p ty ch anc) = (if String.eqb ty "AUGMENTED" then [] else [ty]) ++ types anc.
Proof. unfold enter. destruct (String.eqb ty "AUGMENTED"); reflexivity. Qed.

Definition found (anc : ancestors) (p : path) (x : tree) (ws : list twrite) : Prop :=
  forall r c, In (r, c) ws <-> exists q s, r = p ++ q /\ subtree x q = Some s /\ tense_node s = true /\
                               ctc (around x q ++ types anc) = Ok (Some c).

Lemma scan_found x : forall anc p,
  (forall q s, subtree x q = Some s -> tense_node s = true -> exists o, ctc (around x q ++ types anc) = Ok o) ->
  exists ws, scan_tenses anc p x = Ok ws /\ found anc p x ws.
Proof.
  induction x as [x|ty ch IH] using tree_ind2; intros anc p H.
  - cbn [scan_tenses]. destruct (tense_node (Leaf x)) eqn:T.
    + destruct (H [] (Leaf x) eq_refl T) as [o O]. cbn [around app] in O. rewrite check_ctc, O. cbn [obind].
      eexists. split; [reflexivity |]. intros r c. split.
      * destruct o as [c'|]; intros []. injection H0 as <- <-. exists [], (Leaf x). rewrite app_nil_r. auto. destruct H0.
      * intros (q & s & -> & E & _ & C). destruct q; [| discriminate E]. cbn [around app] in C. rewrite C in O.
        injection O as <-. rewrite app_nil_r. left. reflexivity.
    + eexists. split; [reflexivity |]. intros r c. split; [intros [] |]. intros (q & s & -> & E & N & C).
      destruct q; [| discriminate E]. injection E as <-. congruence.
  - assert (G : forall l n, (forall i c, nth_error l i = Some c -> nth_error ch (n + i) = Some c) -> Forall (fun c => In c ch) l ->
              exists ws, scan_list (enter p ty ch anc) p n l = Ok ws /\
                forall r c, In (r, c) ws <-> exists i q x s, nth_error l i = Some x /\ r = p ++ (n + i) :: q /\ subtree x q = Some s /\
                   tense_node s = true /\ ctc (around x q ++ types (enter p ty ch anc)) = Ok (Some c)).
    { induction l as [|a l IHl]; intros n N F.
      - eexists. split; [reflexivity |]. intros r c. split; [intros [] |]. intros (i & q & x & s & E & _). destruct i; discriminate E.
      - destruct (IHl (S n)) as (ws & E & SP).
        + intros i c I. replace (S n + i) with (n + S i) by lia. apply N. exact I.
        + apply (Forall_inv_tail F).
        + rewrite Forall_forall in IH. destruct (IH a (Forall_inv F) (enter p ty ch anc) (p ++ [n])) as (us & EU & FU).
          * intros q s Q T. assert (Q' : subtree (NT ty ch) (n :: q) = Some s).
            { cbn [subtree]. rewrite <- (Nat.add_0_r n). rewrite (N 0 a eq_refl). exact Q. }
            destruct (H _ _ Q' T) as [o O]. exists o. rewrite <- O. cbn [around].
            replace (nth_error ch n) with (Some a). 2: { rewrite <- (Nat.add_0_r n). symmetry. apply (N 0 a eq_refl). }
            rewrite types_enter, app_assoc. reflexivity.
          * exists (us ++ ws). cbn [scan_list]. fold (scan_list (enter p ty ch anc) p). rewrite EU. cbn [obind]. rewrite E. cbn [obind].
            split; [reflexivity |]. intros r c. rewrite in_app_iff, (FU r c), (SP r c). split.
            -- intros [(q & s & -> & X)|(i & q & x & s & I & -> & X)].
               ++ exists 0, q, a, s. split; [reflexivity |]. split; [| exact X]. rewrite Nat.add_0_r, <- app_assoc. reflexivity.
               ++ exists (S i), q, x, s. split; [exact I |]. split; [| exact X]. f_equal. f_equal. lia.
            -- intros (i & q & x & s & I & -> & X). destruct i as [|i].
               ++ injection I as <-. left. exists q, s. split; [| exact X]. rewrite Nat.add_0_r, <- app_assoc. reflexivity.
               ++ right. exists i, q, x, s. split; [exact I |]. split; [| exact X]. f_equal. f_equal. lia. }
    destruct (G ch 0 (fun i c E => E)) as (ws & E & SP); [apply Forall_forall; auto |].
    assert (W : exists o, (if tense_node (NT ty ch) then check_tense_context anc else Ok None) = Ok o /\
                 forall c, o = Some c <-> tense_node (NT ty ch) = true /\ ctc (types anc) = Ok (Some c)).
    { destruct (tense_node (NT ty ch)) eqn:T.
      - destruct (H [] _ eq_refl T) as [o O]. exists o. rewrite check_ctc. split; [exact O |]. cbn [around app] in O.
        intro c. rewrite O. split; [intros ->; auto | intros [_ [= ->]]; reflexivity].
      - exists None. split; [reflexivity |]. intro c. split; [discriminate | intros [X _]; discriminate X]. }
    destruct W as (o & EO & WO).
    eexists. split.
    + cbn [scan_tenses]. fold (scan_list (enter p ty ch anc) p). rewrite EO. cbn [obind]. rewrite E. cbn [obind]. reflexivity.
    + intros r c. rewrite in_app_iff, (SP r c). split.
      * intros [I|(i & q & x & s & N & -> & SU & T & C)].
        -- destruct o as [c'|]; [| destruct I]. destruct I as [I|[]]. injection I as <- <-.
           destruct (proj1 (WO c') eq_refl) as [T C]. exists [], (NT ty ch). rewrite app_nil_r. auto.
        -- exists (i :: q), s. split; [reflexivity |]. cbn [subtree around]. rewrite N. split; [exact SU |]. split; [exact T |].
           rewrite types_enter, app_assoc in C. exact C.
      * intros (q & s & -> & SU & T & C). destruct q as [|i q].
        -- left. injection SU as <-. cbn [around app] in C. rewrite (proj2 (WO c) (conj T C)). rewrite app_nil_r. left. reflexivity.
        -- right. cbn [subtree around] in SU, C. destruct (nth_error ch i) as [x|] eqn:N; [| discriminate SU].
           exists i, q, x, s. rewrite types_enter, app_assoc. auto.
Qed.

Lemma tenses_parsed t : parsed t -> is_nt "CHUNKS" t = true ->
  exists ws, tense_processing t = Ok ws /\
    forall p c, In (p, c) ws <-> exists s, subtree t p = Some s /\ tense_place s /\
      (if free_after (around t p) then None else if tag_in_jai (around t p) then Some TSC_JAITAG else tense_role (around t p)) = Some c.
Proof.
  intros P C. destruct (scan_found t [] []) as (ws & E & F).
  - intros q s Q T. eexists. cbn [types map]. rewrite app_nil_r. exact (tense_good t q s P C Q T).
  - exists ws. split; [exact E |]. intros p c. rewrite (F p c). cbn [types map]. split.
    + intros (q & s & -> & Q & T & X). cbn [app]. exists s. split; [exact Q |]. split; [apply tense_place_iff; exact T |].
      rewrite app_nil_r in X. rewrite (tense_good t q s P C Q T) in X. congruence.
    + intros (s & Q & T & X). apply tense_place_iff in T. exists p, s. rewrite app_nil_r. repeat split; try assumption.
      rewrite (tense_good t p s P C Q T). congruence.
Qed.
