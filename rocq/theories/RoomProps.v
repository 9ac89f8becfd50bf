(* Property theorems C76: the glossed output is made, for every tree of the parser. *)
From Coq Require Import String Ascii List NArith ZArith Bool Arith.
From Verif Require WalkProps DrvProofs.
From Verif Require Import Base TokData CmavoData TokModel TreeModel TreeOutModel ConnectModel GrammarData GramModel GramSpec GramProofs
  WalkModel WalkSpec OutModel OutSpec OutProofs8 OutProps LabelSpec LabelProofs LabelProps RoomSpec RoomProofs.
Import TransModel(tctx).
Import ListNotations.
Open Scope string_scope.
Open Scope list_scope.

(* When the tables suffice, the places of all terms are found: no assertion fails, nothing is
   read that was not set and no table is left. *)
Theorem C76_total : forall t, parse_tree t -> roomy (expand_bahe_ui t) -> exists es, terms_processing (expand_bahe_ui t) = Ok es.
Proof. exact total. Qed.
Print Assumptions C76_total.

(* They suffice for bridi with at most fourteen terms in all ... *)
Theorem C76_modest : forall t, parse_tree t -> modest (expand_bahe_ui t) -> exists es, terms_processing (expand_bahe_ui t) = Ok es.
Proof. exact modest_total. Qed.
Print Assumptions C76_modest.

(* ... and so for texts with at most fourteen. *)
Theorem C76_short : forall t, parse_tree t -> short_text (expand_bahe_ui t) -> exists es, terms_processing (expand_bahe_ui t) = Ok es.
Proof. exact short_total. Qed.
Print Assumptions C76_short.

(* With a dictionary that has entries of an ordinary size the whole of the output is made. *)
Theorem C76_gloss : forall translate adv_translate translate_unknown t, parse_tree t -> let T := expand_bahe_ui t in roomy T ->
  exists es ws, terms_processing T = Ok es /\ connectives_processing T = Ok ws /\
  forall P rb, let top := add_bracketing_tags rb T in
    (forall x l, In l (p_term_tags P x) <-> In (Tagged x l) es) -> (forall p, p_connective P p = connective_at ws p) ->
    (forall q n, number top q = Some n -> few_digits n) -> complete_places adv_translate T ->
    ordinary translate adv_translate translate_unknown (unlabelled P) (number top) T ->
    exists cs, do_output translate adv_translate translate_unknown P top = Ok cs.
Proof. exact gloss_total. Qed.
Print Assumptions C76_gloss.

(* ---- examples ---- *)

Definition short_b (T : tree) : bool :=
  if Nat.leb (tally a_term T) 14 then if Nat.leb (tally a_layer T) 19 then Nat.eqb (tally bare_tail T) 0 else false else false.
Lemma short_ok T : short_b T = true -> short_text T.
Proof.
  unfold short_b. destruct (Nat.leb_spec (tally a_term T) 14); [| intro Q; discriminate Q]. destruct (Nat.leb_spec (tally a_layer T) 19); [| intro Q; discriminate Q].
  intro E. apply Nat.eqb_eq in E. split; [assumption | split; assumption].
Qed.
(* three texts to which they apply *)
Example C76_case : forallb (fun t => if parse_treeb t then short_b (expand_bahe_ui t) else false) [WalkProps.ex_bridi; WalkProps.ex_jai; WalkProps.ex_sumti] = true.
Proof. vm_compute. reflexivity. Qed.
Example C76_roomy_case : parse_tree WalkProps.ex_bridi /\ roomy (expand_bahe_ui WalkProps.ex_bridi) /\ modest (expand_bahe_ui WalkProps.ex_bridi).
Proof.
  assert (M : modest (expand_bahe_ui WalkProps.ex_bridi)) by (apply WalkTotal4.short_modest, short_ok; vm_compute; reflexivity).
  split; [apply parse_treeb_ok; vm_compute; reflexivity |]. split; [apply WalkTotal3.modest_roomy; exact M | exact M].
Qed.
(* without the last condition: C72_tail_refuted; with more terms: C72_many_refuted *)
Example C76_not_short : short_b (expand_bahe_ui WalkProps.ex_tail) = false /\ short_b (expand_bahe_ui WalkProps.ex_many) = false.
Proof. split; vm_compute; reflexivity. Qed.

Definition ex_labels : props :=
  let P := ex_props ex_out ex_tags in
  Props (p_eols P) (p_elidable P) (p_conversion P) (p_bai_conversion P) (p_tense_ctx P) (p_glosstype P) (p_dont_gloss P) (p_connective P)
    (tags_at (walked ex_out)) (p_rel_clause_link P) (p_antecedent P).
Example C76_gloss_case : parse_tree ex_out /\ let T := expand_bahe_ui ex_out in roomy T /\ exists es ws, terms_processing T = Ok es /\ connectives_processing T = Ok ws /\
  let top := add_bracketing_tags (ex_rb ex_out) T in
    (forall x l, In l (p_term_tags ex_labels x) <-> In (Tagged x l) es) /\ (forall p, p_connective ex_labels p = connective_at ws p) /\
    (forall q n, number top q = Some n -> few_digits n) /\ complete_places ex_adv T /\
    ordinary ex_dict ex_adv ex_unk (unlabelled ex_labels) (number top) T.
Proof.
  destruct C66_case as (PT & ws & W & _ & CN & OR). split; [exact PT |]. intro T. split; [apply WalkTotal3.modest_roomy, WalkTotal4.short_modest, short_ok; vm_compute; reflexivity |].
  assert (B : match terms_processing (expand_bahe_ui ex_out) with Ok _ => true | _ => false end = true) by (vm_compute; reflexivity).
  destruct (terms_processing (expand_bahe_ui ex_out)) as [es | | | | ] eqn:E; try discriminate B.
  assert (WE : walked ex_out = es) by (unfold walked; rewrite E; reflexivity).
  exists es, ws. split; [exact E |]. split; [exact W |]. intro top. split; [| split; [exact CN | split; [| split]]].
  - intros x l. rewrite <- WE. apply tags_at_in.
  - intros q n N. unfold number in N. pose proof (numbers_in q top) as I. destruct (asub top q) as [[| k' b' n' ch'] |]; try discriminate N. injection N as ->.
    assert (F : forallb (fun n => (N.of_nat (String.length (TransModel.zdec (Z.of_nat n))) <=? 100)%N) (numbers (add_bracketing_tags (ex_rb ex_out) (expand_bahe_ui ex_out))) = true)
      by (vm_compute; reflexivity).
    rewrite forallb_forall in F. apply N.leb_le, F, I.
  - assert (LW : forall w, place_word T w -> percent_free (w ++ " place") = true /\ N.leb (N.of_nat (String.length (w ++ " place"))) 1000 = true).
    { intros w PW. assert (Q : (if percent_free (w ++ " place") then N.leb (N.of_nat (String.length (w ++ " place"))) 1000 else false) = true).
      { destruct PW as [|q x w ty Ex D|q x ys w z Ex D|q x s c f Ex D]; [vm_compute; reflexivity | | |];
          pose proof (nodes_check (fun _ s => match s with
            | Leaf x => match dat x with
                        | N_CMAVO s c _ => if percent_free (cmavo_word c ++ " place") then N.leb (N.of_nat (String.length (cmavo_word c ++ " place"))) 1000 else false
                        | N_BRIVLA w _ => if percent_free (w ++ " place") then N.leb (N.of_nat (String.length (w ++ " place"))) 1000 else false
                        | _ => false end
            | _ => true end) (expand_bahe_ui ex_out) q (Leaf x) ltac:(vm_compute; reflexivity) Ex) as C; cbv beta iota in C; rewrite D in C; [exact C | discriminate C | exact C]. }
      destruct (percent_free (w ++ " place")); [split; [reflexivity | exact Q] | discriminate Q]. }
    intros w n PW _. destruct (LW w PW) as [L1 L2]. exists (w ++ " place")%string. split; [reflexivity |]. intros k _. exists (w ++ " place")%string.
    split; [exact (tm_plain _ k L1) | apply N.leb_le; exact L2].
  - destruct OR as [O1 O2 O3 O4 O5 O6 O7 O8 O9]. constructor; try assumption.
    + intros p x w Ex HP. destruct (O5 p x w Ex HP) as (o & C & SH). exists o. split; [| exact SH].
      destruct C as [sel ter e H1 H2|e H1 H2|e H1 H2 H3|o H1 H2 H3 H4]; [discriminate H1 | eapply co_place; [exact H1 | exact H2] | | eapply co_new; [exact H1 | exact H2 | exact H3 | exact H4]].
      change (p_conversion (ex_props ex_out ex_tags)) with (p_conversion (unlabelled ex_labels)). eapply co_word; [exact H1 | exact H2 | exact H3].
    + intros p k [].
Qed.
