(* Conversions in parse trees: every word stands where the scan expects it. *)
From Coq Require Import String List NArith Bool Arith Lia.
From Verif Require Import Base TokData CmavoData TokModel StreamModel TreeModel TreeOutModel ErasureProofs GrammarData GramModel GramSpec
  GramProofs PassProofs2 ConvModel ConvSpec ConvProofs.
Import ListNotations.
Open Scope string_scope.
Open Scope list_scope.

Definition has (k : string) (l : list string) : bool := existsb (String.eqb k) l.
Lemma has_In k l : has k l = true <-> In k l.
Proof.
  unfold has. rewrite existsb_exists. split; [intros (x & I & E); apply String.eqb_eq in E; subst; exact I |].
  intro I. exists k. split; [exact I | apply String.eqb_refl].
Qed.

(* the kinds of nodes between a word and the end of its selbri *)
Definition inner : list string :=
  ["TANRU_UNIT_2"; "NAHE_TU2"; "TANRU_UNIT_1"; "TANRU_UNIT"; "SELBRI_6"; "SELBRI_5"; "SELBRI_3";
   "KE_SELBRI_3"; "KE_SELBRI3_TU2"; "SE_TU2"; "JAI_TU2"; "JAI_TAG_TU2"; "SELBRI_4"].
Definition nuish : list string := ["NU_NAI_SEQ"; "ABSTRACTION"].

(* what the grammar says about them *)
Definition edge_ok (ty : string) (s : sym) : bool :=
  match s with
  | SN k =>
      (if has k inner then has ty ("SELBRI_2" :: inner) else true) &&
      (if String.eqb k "SELBRI_4" then has ty ["SELBRI_3"; "SELBRI_4"] else true) &&
      (if has k nuish then has ty ("TANRU_UNIT_2" :: nuish) else true)
  | ST t | SE t =>
      (if tok_eqb t T_BRIVLA then String.eqb ty "TANRU_UNIT_2" else true) &&
      (if tok_eqb t T_NU then String.eqb ty "NU_NAI_SEQ" else true)
  end.
Lemma edges : forallb (fun r => forallb (forallb (edge_ok (fst r))) (snd r)) grammar = true.
Proof. vm_compute. reflexivity. Qed.
Lemma edge_kid ty k : In k (kids ty) -> edge_ok ty (SN k) = true.
Proof.
  intro K. unfold kids in K. apply in_flat_map in K. destruct K as (ss & IS & K).
  apply in_flat_map in K. destruct K as (s & IN & K). destruct s as [k'|t|t]; [destruct K as [->|[]] | destruct K | destruct K].
  unfold alternatives in IS. apply in_flat_map in IS. destruct IS as (r & RI & IS).
  destruct (String.eqb_spec (fst r) ty) as [E|E]; [| destruct IS]. subst ty.
  pose proof edges as C. rewrite forallb_forall in C. specialize (C r RI). rewrite forallb_forall in C. specialize (C ss IS).
  rewrite forallb_forall in C. exact (C _ IN).
Qed.
Lemma edge_tok ty t : In t (toks ty) -> edge_ok ty (ST t) = true.
Proof.
  intro K. unfold toks in K. apply in_flat_map in K. destruct K as (ss & IS & K).
  apply in_flat_map in K. destruct K as (s & IN & K).
  unfold alternatives in IS. apply in_flat_map in IS. destruct IS as (r & RI & IS).
  destruct (String.eqb_spec (fst r) ty) as [E|E]; [| destruct IS]. subst ty.
  pose proof edges as C. rewrite forallb_forall in C. specialize (C r RI). rewrite forallb_forall in C. specialize (C ss IS).
  rewrite forallb_forall in C. specialize (C _ IN). destruct s as [k'|t'|t']; [destruct K | destruct K as [->|[]]; exact C..].
Qed.

(* the words of selma'o SE *)
Definition is_se (w : string) : bool := has w (map fst se_words).
Lemma se_table : forallb (fun e => match e with (_, w, s) => if tok_eqb s T_SE then is_se w else true end) cmavo_cells = true.
Proof. vm_compute. reflexivity. Qed.
Lemma se_text x : is_word T_SE x -> cmtest x T_SE = true /\ exists n, In (text_of x, n) se_words.
Proof.
  intro W. split; [apply word_cm; [exact W | discriminate..] |]. pose proof (word_value _ _ W) as V.
  unfold is_word in W. unfold value_of in V. unfold text_of. destruct (dat x) eqn:D; try discriminate V; try exact (False_ind _ W).
  destruct W as [S _]. match type of V with (if ?b then _ else _) = _ => destruct b; [discriminate V |] end. injection V as ->.
  unfold cmavo_selmao, cmavo_word, cmavo_cell in *.
    destruct (find _ cmavo_cells) as [[[c w] s]|] eqn:F; [| discriminate S]. injection S as ->.
    apply find_some in F. destruct F as [F _]. pose proof se_table as T. rewrite forallb_forall in T. specialize (T _ F).
    change (is_se w = true) in T. unfold is_se in T. apply has_In in T. apply in_map_iff in T. destruct T as ([w' n] & E & I). exists n.
    cbn in E. subst w'. exact I.
Qed.
Lemma se_converts p c rest : wordlike T_SE c -> exists n q, converts p (c :: rest) n q.
Proof.
  intros [x X|bs x us B X U]; destruct (se_text x X) as [T [n I]]; exists n; eexists.
  - eapply cv_word; [reflexivity | exact T | reflexivity | exact I].
  - eapply cv_augmented; [reflexivity | exact B | exact T | reflexivity | exact I].
Qed.
Lemma se_first k ss ch : (k = "SE_TU2" \/ k = "SE_BAI") -> In ss (alternatives k) -> fitsx ss ch ->
  exists c d rest, ch = c :: d :: rest /\ wordlike T_SE c.
Proof.
  intros E I F.
  assert (S : forallb (fun ss => match ss with ST T_SE :: (ST _ | SN _) :: _ => true | _ => false end) (alternatives k) = true).
  { destruct E as [->| ->]; vm_compute; reflexivity. }
  rewrite forallb_forall in S. specialize (S ss I).
  destruct ss as [|[|t|] ss]; try discriminate S. destruct t; try discriminate S.
  inversion F as [| |t c ss0 cs W F' E1 E2| |]; subst.
  destruct ss as [|s ss]; [discriminate S |].
  destruct s; inversion F'; subst; try discriminate S; exists c; eexists; eexists; split; try reflexivity; exact W.
Qed.

(* what holds on the way down *)
Definition good (anc : list ancestor) : Prop :=
  match anc with
  | [] => True
  | (p, ty, ch) :: up =>
      (In ty ("SELBRI_2" :: inner) -> exists ops qs, conversions anc ops qs) /\
      (In ty ("TANRU_UNIT_2" :: nuish) -> exists a b ch p' ops qs, anc = a ++ (p', "TANRU_UNIT_2", ch) :: b /\
         Forall (fun c => snd (fst c) <> "TANRU_UNIT_2") a /\ conversions ((p', "TANRU_UNIT_2", ch) :: b) ops qs)
  end.

Lemma no_nil ops qs : ~ conversions [] ops qs.
Proof. intro H. inversion H. Qed.
Lemma no_end p ty ch ops qs : conversions [(p, ty, ch)] ops qs -> ty <> "SELBRI_2" -> False.
Proof.
  intros H N. inversion H as [? ? ? ? ? ? ? C X|? ? ? ? ? ? T X|? ? ? ? ? ? T X|? ? ? C|? ? ? ? ? ? ? ? ? ? ? C X|]; subst;
    try (exact (no_nil _ _ X)).
  - destruct C as (? & ? & ? & ? & ? & C). discriminate C.
  - contradiction.
Qed.

Lemma good_kid p ty ch up k q cc : good ((p, ty, ch) :: up) -> parsed (NT k cc) -> In k (kids ty) ->
  good ((q, k, cc) :: (p, ty, ch) :: up).
Proof.
  intros [G1 G2] P K. pose proof (edge_kid ty k K) as E. cbn [edge_ok] in E.
  apply andb_true_iff in E. destruct E as [E E3]. apply andb_true_iff in E. destruct E as [E1 E2].
  assert (A : k <> "AUGMENTED") by (intros ->; exact (no_augmented ty K)).
  assert (C : In k ("SELBRI_2" :: inner) -> exists ops qs, conversions ((q, k, cc) :: (p, ty, ch) :: up) ops qs).
  { intro I. destruct (String.eqb_spec k "SELBRI_2") as [->|NE]; [exists [], []; apply cs_end |].
    destruct I as [X|I]; [congruence |]. rewrite (proj2 (has_In k inner) I) in E1. apply has_In in E1.
    destruct (G1 E1) as (ops & qs & CV).
    destruct (String.eqb_spec k "SELBRI_4") as [->|N4].
    - apply has_In in E2. destruct up as [|[[p1 t1] c1] up].
      + exfalso. eapply no_end; [exact CV |]. destruct E2 as [<-|[<-|[]]]; discriminate.
      + destruct (String.eqb_spec ty "SELBRI_3") as [->|N3].
        * destruct (String.eqb_spec t1 "SELBRI_3") as [->|N31].
          -- exists [], []. apply cs_component. unfold component. eauto 10.
          -- exists ops, qs. apply cs_whole; [| exact CV]. intros (a & b & c & d & e & X). injection X. congruence.
        * exists ops, qs. apply cs_whole; [| exact CV]. intros (a & b & c & d & e & X). injection X. congruence.
    - destruct (String.eqb_spec k "SE_TU2") as [->|NS].
      + apply parsed_NT in P. destruct P as [X|[(ss & IS & F) _]]; [discriminate X |].
        destruct (se_first "SE_TU2" ss cc (or_introl eq_refl) IS F) as (c & d & rest & -> & W).
        destruct (se_converts q c (d :: rest) W) as (n & r & CO). exists (Se n :: ops), (r :: qs). apply cs_se; assumption.
      + destruct (String.eqb_spec k "JAI_TU2") as [->|NJ]; [exists (Jai :: ops), qs; apply cs_jai; auto |].
        destruct (String.eqb_spec k "JAI_TAG_TU2") as [->|NJ2]; [exists (Jai :: ops), qs; apply cs_jai; auto |].
        exists ops, qs. apply cs_transparent; [| exact CV]. unfold transparent. unfold inner in I. cbn [In] in I |- *.
        intuition congruence. }
  split; [exact C |]. intro I.
  destruct (String.eqb_spec k "TANRU_UNIT_2") as [->|NE].
  - destruct C as (ops & qs & CV); [right; left; reflexivity |].
    exists [], ((p, ty, ch) :: up), cc, q, ops, qs. split; [reflexivity |]. split; [constructor | exact CV].
  - destruct I as [X|I]; [congruence |]. rewrite (proj2 (has_In k nuish) I) in E3. apply has_In in E3.
    destruct (G2 E3) as (a & b & ch' & p' & ops & qs & EQ & FA & CV).
    exists ((q, k, cc) :: a), b, ch', p', ops, qs. split; [cbn [app]; rewrite EQ; reflexivity |]. split; [constructor; [exact NE | exact FA] | exact CV].
Qed.

(* what is asked of a word *)
Definition stands (x : node) (anc : list ancestor) : Prop :=
  (brivla x -> exists ops qs, conversions anc ops qs) /\
  (cmtest x T_NU = true -> exists a b ch p' ops qs, anc = a ++ (p', "TANRU_UNIT_2", ch) :: b /\
     Forall (fun c => snd (fst c) <> "TANRU_UNIT_2") a /\ conversions ((p', "TANRU_UNIT_2", ch) :: b) ops qs).

Lemma attach_stands x anc : attachable x = true -> stands x anc.
Proof.
  unfold attachable. intro A. split.
  - intros (w & t & D). rewrite D in A. discriminate A.
  - unfold cmtest. destruct (dat x); try discriminate. intro T. apply tok_eqb_eq in T. subst. discriminate A.
Qed.
Lemma word_stands tk x p ty ch up : is_word tk x -> In tk (toks ty) -> good ((p, ty, ch) :: up) -> stands x ((p, ty, ch) :: up).
Proof.
  intros W I [G1 G2]. pose proof (word_value _ _ W) as V. pose proof (edge_tok ty tk I) as E. cbn [edge_ok] in E.
  apply andb_true_iff in E. destruct E as [E1 E2]. split.
  - intros (w & t & D). unfold value_of in V. rewrite D in V. injection V as <-. apply String.eqb_eq in E1. apply G1. subst. right. left. reflexivity.
  - unfold cmtest. unfold value_of in V. destruct (dat x); try discriminate. intro T. apply tok_eqb_eq in T. subst.
    injection V as <-. apply String.eqb_eq in E2. apply G2. subst. right. left. reflexivity.
Qed.

Lemma ornament_ancestors t p q l : ancestors t p q l -> ornament t -> l = [].
Proof.
  induction 1 as [|ty ch i c p q l l' N A IH L]; intro O; [reflexivity |]. apply ornament_NT in O. destruct O as [-> F].
  rewrite Forall_forall in F. rewrite IH in L; [exact L | apply F; eapply nth_error_In; exact N].
Qed.

Lemma down q : forall ty ch p l up x, parsed (NT ty ch) -> ty <> "AUGMENTED" -> good ((p, ty, ch) :: up) ->
  subtree (NT ty ch) q = Some (Leaf x) -> ancestors (NT ty ch) p q l -> stands x (l ++ up).
Proof.
  induction q as [|i q IH]; intros ty ch p l up x P A G E L; [discriminate E |].
  cbn [subtree] in E. destruct (nth_error ch i) as [c|] eqn:N; [| discriminate E].
  inversion L as [|ty' ch' i' c' p' q' l0 l0' N' L' EL]; subst. rewrite N in N'. injection N' as <-.
  destruct (String.eqb_spec ty "AUGMENTED") as [X|_]; [contradiction |]. rewrite <- app_assoc. cbn [app].
  pose proof (nth_error_In _ _ N) as NI.
  destruct (child_kinds ty ch c P A NI) as [(k & cc & -> & K)|(t & W & K)].
  - assert (PC : parsed (NT k cc)) by (eapply parsed_children; eassumption).
    eapply IH; [exact PC | intros ->; exact (no_augmented ty K) | | exact E | exact L'].
    apply good_kid; assumption.
  - destruct (wordlike_inv _ _ W) as [(y & X & ->)|(bs & y & us & B & X & U & ->)].
    + destruct q; [| discriminate E]. injection E as ->. inversion L'; subst. cbn [app]. eapply word_stands; eassumption.
    + destruct q as [|j q]; [discriminate E |]. cbn [subtree] in E.
      destruct (nth_error (bs ++ Leaf y :: us) j) as [c|] eqn:N2; [| discriminate E].
      inversion L' as [|ty' ch' i' c' p' q' l1 l1' N' L'' EL]; subst. rewrite N2 in N'. injection N' as <-.
      rewrite String.eqb_refl.
      assert (J : ornament c \/ c = Leaf y).
      { apply nth_error_In in N2. apply in_app_or in N2. rewrite Forall_forall in B, U.
        destruct N2 as [Z|[Z|Z]]; [left; apply B; exact Z | right; congruence | left; apply U; exact Z]. }
      destruct J as [O| ->].
      * apply attach_stands. pose proof (at_ornament q c _ O E) as AO. exact AO.
      * destruct q; [| discriminate E]. injection E as ->. inversion L''; subst. cbn [app]. eapply word_stands; eassumption.
Qed.

Theorem parse_placed t : parse_tree t -> placed (expand_bahe_ui t).
Proof.
  intro T. destruct (parse_expand t T) as [P C]. intros p x anc E L.
  destruct (expand_bahe_ui t) as [y|ty ch]; [discriminate C |]. apply String.eqb_eq in C. subst ty.
  rewrite <- (app_nil_r anc). eapply down; [exact P | discriminate | | exact E | exact L].
  split; intro I; exfalso; cbv in I; intuition discriminate.
Qed.

Lemma ancestors_exist q : forall t p s, subtree t q = Some s -> exists l, ancestors t p q l.
Proof.
  induction q as [|i q IH]; intros t p s E; [exists []; constructor |].
  destruct t as [x|ty ch]; [discriminate E |]. cbn [subtree] in E. destruct (nth_error ch i) as [c|] eqn:N; [| discriminate E].
  destruct (IH c (p ++ [i]) s E) as [l L]. eexists. econstructor; [exact N | exact L | reflexivity].
Qed.

Theorem parse_marked preset t : parse_tree t -> exists ws, conv_mark_tu2s preset [] [] (expand_bahe_ui t) = Ok ws /\
  forall p x, subtree (expand_bahe_ui t) p = Some (Leaf x) -> brivla x -> preset p = false ->
    exists anc ops qs, ancestors (expand_bahe_ui t) [] p anc /\ conversions anc ops qs /\
      (forall n, In (p, Conv n) ws <-> n = enc (place (rev ops) 1)) /\ Forall (fun q => In (q, DontGloss) ws) qs.
Proof.
  intro T. pose proof (parse_placed t T) as P. destruct (mark_total preset _ P) as [ws M]. exists ws. split; [exact M |].
  intros p x E B PR. destruct (ancestors_exist p _ [] _ E) as [anc A]. destruct (P p x anc E A) as [PB _].
  destruct (PB B) as (ops & qs & CV). exists anc, ops, qs. split; [exact A |]. split; [exact CV |].
  eapply brivla_conv; eassumption.
Qed.

(* ---------- BAI ---------- *)
Lemma tag_ornament t : forall p, ornament t -> exists ws, conv_tag_se_bai p t = Ok ws.
Proof.
  induction t as [x|ty ch IH] using tree_ind2; intros p O; [exists []; reflexivity |].
  apply ornament_NT in O. destruct O as [-> F]. rewrite tag_nt by discriminate.
  generalize 0. induction ch as [|c ch IHc]; intro i; [exists []; reflexivity |].
  destruct (Forall_inv IH (p ++ [i]) (Forall_inv F)) as [u U].
  destruct (IHc (Forall_inv_tail IH) (Forall_inv_tail F) (S i)) as [v V].
  cbn [tag_list]. rewrite U. cbn [obind]. rewrite V. eexists. reflexivity.
Qed.

Lemma tag_word tk c p : wordlike tk c -> exists ws, conv_tag_se_bai p c = Ok ws.
Proof.
  intro W. destruct (wordlike_inv _ _ W) as [(x & X & ->)|(bs & x & us & B & X & U & ->)]; [exists []; reflexivity |].
  rewrite tag_nt by discriminate. generalize 0. clear W. revert p. induction B as [|b bs O B IH]; intros p i; cbn [app tag_list].
  - cbn [conv_tag_se_bai obind].
    assert (T : forall i, exists ws, tag_list p i us = Ok ws).
    { clear - U. induction U as [|u us O U IH]; intro i; [exists []; reflexivity |]. cbn [tag_list].
      destruct (tag_ornament u (p ++ [i]) O) as [a A]. destruct (IH (S i)) as [b B]. rewrite A. cbn [obind]. rewrite B. eexists. reflexivity. }
    destruct (T (S i)) as [ws ->]. eexists. reflexivity.
  - destruct (tag_ornament b (p ++ [i]) O) as [a A]. destruct (IH p (S i)) as [c C]. rewrite A. cbn [obind]. rewrite C. eexists. reflexivity.
Qed.
Theorem tag_parsed t : forall p, parsed t -> (exists tk, wordlike tk t) \/ is_nt "AUGMENTED" t = false -> exists ws, conv_tag_se_bai p t = Ok ws.
Proof.
  induction t as [x|ty ch IH] using tree_ind2; intros p P K; [exists []; reflexivity |].
  destruct K as [[tk W]|K]; [eapply tag_word; exact W |].
  assert (A : ty <> "AUGMENTED") by (intros ->; discriminate K).
  pose proof P as P'. apply parsed_NT in P. destruct P as [X|[(ss & IS & F) PC]]; [contradiction |].
  destruct (String.eqb_spec ty "SE_BAI") as [->|N1].
  - destruct (se_first "SE_BAI" ss ch (or_intror eq_refl) IS F) as (c & d & rest & -> & W).
    destruct (se_converts p c (d :: rest) W) as (n & r & CO). destruct (converts_place _ _ _ _ CO) as (c0 & rest0 & r0 & EQ & SE & _).
    injection EQ as <- <-. cbn [conv_tag_se_bai]. rewrite String.eqb_refl, SE. eexists. reflexivity.
  - destruct (String.eqb_spec ty "BAI1") as [->|N2].
    + assert (S : forallb (fun ss => match ss with (ST _ | SN _) :: _ => true | _ => false end) (alternatives "BAI1") = true) by (vm_compute; reflexivity).
      rewrite forallb_forall in S. specialize (S ss IS). destruct ss as [|s ss]; [discriminate S |].
      destruct s; inversion F; subst; try discriminate S; eexists; reflexivity.
    + rewrite tag_nt by assumption.
      assert (Q : Forall (fun c => forall p, exists ws, conv_tag_se_bai p c = Ok ws) ch).
      { rewrite Forall_forall in IH, PC |- *. intros c C p'. apply IH; [exact C | apply PC; exact C |].
        destruct (child_kinds ty ch c P' A C) as [(k & cc & -> & KK)|(t & W & KK)]; [right | left; eauto].
        cbn [is_nt]. apply String.eqb_neq. intros ->. exact (no_augmented ty KK). }
      clear - Q. generalize 0. induction Q as [|c ch C Q IHQ]; intro i; [exists []; reflexivity |]. cbn [tag_list].
      destruct (C (p ++ [i])) as [a ->]. destruct (IHQ (S i)) as [b B]. cbn [obind]. rewrite B. eexists. reflexivity.
Qed.
Theorem parse_tagged t : parse_tree t -> exists ws, conv_tag_se_bai [] (expand_bahe_ui t) = Ok ws.
Proof.
  intro T. destruct (parse_expand t T) as [P C]. apply tag_parsed; [exact P |]. right.
  destruct (expand_bahe_ui t); [discriminate C |]. apply String.eqb_eq in C. subst. reflexivity.
Qed.
