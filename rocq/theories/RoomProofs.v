(* The glossed output is made: the passes together. *)
From Coq Require Import String List NArith ZArith Bool Arith Lia.
From Verif Require Import Base TreeModel TreeOutModel ConnectModel GrammarData GramModel GramSpec GramProofs WalkModel WalkSpec OutModel OutSpec OutProofs8 OutProps ParseProps LabelSpec LabelProofs LabelProps
  RoomSpec WalkTotal3 WalkTotal4.
Import ListNotations.
Open Scope string_scope.
Open Scope list_scope.

Lemma total t : parse_tree t -> roomy (expand_bahe_ui t) -> exists es, terms_processing (expand_bahe_ui t) = Ok es.
Proof. intros PT R. destruct (parse_expand _ PT) as [PX CX]. exact (walk_total _ PX CX R). Qed.
Lemma modest_total t : parse_tree t -> modest (expand_bahe_ui t) -> exists es, terms_processing (expand_bahe_ui t) = Ok es.
Proof. intros PT R. apply total; [exact PT | apply modest_roomy; exact R]. Qed.
Lemma short_total t : parse_tree t -> short_text (expand_bahe_ui t) -> exists es, terms_processing (expand_bahe_ui t) = Ok es.
Proof. intros PT R. apply modest_total; [exact PT | apply short_modest; exact R]. Qed.

Lemma gloss_total translate adv_translate translate_unknown t : parse_tree t -> let T := expand_bahe_ui t in roomy T ->
  exists es ws, terms_processing T = Ok es /\ connectives_processing T = Ok ws /\
  forall P rb, let top := add_bracketing_tags rb T in
    (forall x l, In l (p_term_tags P x) <-> In (Tagged x l) es) -> (forall p, p_connective P p = connective_at ws p) ->
    (forall q n, number top q = Some n -> few_digits n) -> complete_places adv_translate T ->
    ordinary translate adv_translate translate_unknown (unlabelled P) (number top) T ->
    exists cs, do_output translate adv_translate translate_unknown P top = Ok cs.
Proof.
  intros PT T R. destruct (total t PT R) as (es & E). destruct (C14_parse t PT) as (ws & W & _). exists es, ws. split; [exact E |]. split; [exact W |].
  intros P rb top TG CN FD CP OR. apply (C66_complete translate adv_translate translate_unknown P rb t ws PT W CN).
  destruct OR as [O1 O2 O3 O4 O5 O6 O7 O8 O9]. constructor; try assumption.
  - intros p x w Ex HP. destruct (O5 p x w Ex HP) as (o & C & S). exists o. split; [| exact S]. change (p_conversion (unlabelled P)) with (p_conversion P) in C.
    destruct C as [sel ter e H1 H2|e H1 H2|e H1 H2 H3|o H1 H2 H3 H4].
    + eapply co_role; [exact H1 | exact H2].
    + eapply co_place; [exact H1 | exact H2].
    + change (p_conversion (unlabelled P)) with (p_conversion P). eapply co_word; [exact H1 | exact H2 | exact H3].
    + eapply co_new; [exact H1 | exact H2 | exact H3 | exact H4].
  - intros p k I. apply TG in I. exact (C75_complete adv_translate rb t es p k PT E FD CP I).
Qed.
