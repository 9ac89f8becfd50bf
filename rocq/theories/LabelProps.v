(* Property theorems C75: the labels in the glossed output, for every tree of the parser. *)
From Coq Require Import String Ascii List NArith ZArith Bool Arith.
From Verif Require WalkProps DrvProofs.
From Verif Require Import Base TokData CmavoData TokModel TreeModel TreeOutModel ErasureProps GrammarData GramModel GramSpec GramProofs
  WalkModel WalkSpec OutModel OutSpec OutProofs8 OutProps LabelSpec LabelProofs WalkProofs8.
Import TransModel(tctx).
Import ListNotations.
Open Scope string_scope.
Open Scope list_scope.

(* A term has labels for exactly the places it has, each with the word, the number of the place
   and the translation of that place; they stand before the words of the term. *)
Theorem C75_labels : forall translate adv_translate translate_unknown P rb t es cs q ch, parse_tree t ->
  let T := expand_bahe_ui t in let top := add_bracketing_tags rb T in let text := fun e => written (p_elidable P (fst e)) (snd e) in
  terms_processing T = Ok es -> (forall x l, In l (p_term_tags P x) <-> In (Tagged x l) es) ->
  do_output translate adv_translate translate_unknown P top = Ok cs -> subtree T q = Some (NT "TERM" ch) -> by_itself T q ->
  exists tags b n ls pre mid post L1 L2, (forall l, In l tags <-> called T q l) /\ Forall2 (label_shown adv_translate top) tags ls /\
    cs = pre ++ Open b n :: all_labels ls ++ mid ++ Close b n :: post /\
    leaves [] T = L1 ++ leaves q (NT "TERM" ch) ++ L2 /\
    shown_words pre = map text L1 /\ shown_words mid = map text (leaves q (NT "TERM" ch)) /\ shown_words post = map text L2.
Proof.
  intros translate adv_translate translate_unknown P rb t es cs q ch PT T top text R.
  exact (term_called translate adv_translate translate_unknown P rb t PT es R cs q ch).
Qed.
Print Assumptions C75_labels.

(* What a label names by a number is in brackets with that number. *)
Theorem C75_numbers : forall translate adv_translate translate_unknown P rb t es cs x l q, parse_tree t ->
  let T := expand_bahe_ui t in let top := add_bracketing_tags rb T in let text := fun e => written (p_elidable P (fst e)) (snd e) in
  terms_processing T = Ok es -> (forall q, In (Brackets q) es -> rb q = true) ->
  do_output translate adv_translate translate_unknown P top = Ok cs -> In (Tagged x l) es -> by_number l q ->
  exists s b n pre mid post, subtree T q = Some s /\ number top q = Some n /\ n <> 0 /\ cs = pre ++ Open b n :: mid ++ Close b n :: post /\ nested mid /\
    shown_words mid = map text (leaves q s).
Proof.
  intros translate adv_translate translate_unknown P rb t es cs x l q PT T top text R.
  exact (label_number translate adv_translate translate_unknown P rb t PT es R cs x l q).
Qed.
Print Assumptions C75_numbers.

(* The labels are as C66_complete asks for. *)
Theorem C75_complete : forall adv_translate rb t es x l, parse_tree t -> let T := expand_bahe_ui t in
  terms_processing T = Ok es -> (forall q n, number (add_bracketing_tags rb T) q = Some n -> few_digits n) ->
  complete_places adv_translate T -> In (Tagged x l) es ->
  tag_ok adv_translate (number (add_bracketing_tags rb T)) T l.
Proof.
  intros adv_translate rb t es x l PT T R. exact (tags_ok adv_translate rb t PT es R x l).
Qed.
Print Assumptions C75_complete.

(* ---- an example ---- *)

(* mi me do *)
Definition ex_me : tree :=
  NT "CHUNKS" [NT "TEXT" [NT "TEXT_1" [NT "PARAGRAPHS" [NT "PARAGRAPH" [NT "STATEMENT" [NT "INNER_STATEMENT" [NT
  "STATEMENT_1" [NT "STATEMENT_2" [NT "STATEMENT_3" [NT "SENTENCE" [NT "NO_CU_SENTENCE" [NT "TERMS" [NT "TERMS_1"
  [NT "TERMS_2" [NT "TERM" [NT "TERM_PLAIN_SUMTI" [NT "SUMTI" [NT "SUMTI_1" [NT "SUMTI_2" [NT "SUMTI_3" [NT
  "SUMTI_4" [NT "SUMTI_5" [NT "SUMTI_5A" [NT "SUMTI_6" [Leaf (cm "mi")]]]]]]]]]]]]]; NT "BRIDI_TAIL" [NT
  "BRIDI_TAIL_1" [NT "BRIDI_TAIL_2" [NT "BRIDI_TAIL_3" [NT "MAIN_SELBRI" [NT "SELBRI" [NT "SELBRI_1" [NT "SELBRI_2"
  [NT "SELBRI_3" [NT "SELBRI_4" [NT "SELBRI_5" [NT "SELBRI_6" [NT "TANRU_UNIT" [NT "TANRU_UNIT_1" [NT "TANRU_UNIT_2"
  [Leaf (cm "me"); NT "SUMTI" [NT "SUMTI_1" [NT "SUMTI_2" [NT "SUMTI_3" [NT "SUMTI_4" [NT "SUMTI_5" [NT "SUMTI_5A"
  [NT "SUMTI_6" [Leaf (cm "do")]]]]]]]]]]]]]]]]]]]]]]]]]]]]]]]]]]].

Definition tags_at (es : list effect) (x : path) : list term_tag :=
  flat_map (fun e => match e with Tagged y l => if peqb y x then [l] else [] | _ => [] end) es.
Definition brackets_at (es : list effect) (x : path) : bool :=
  existsb (fun e => match e with Brackets y => peqb y x | _ => false end) es.
Definition walked (t : tree) : list effect := results (terms_processing (expand_bahe_ui t)).
Definition ex_walk_props (t : tree) : props :=
  let P := ex_props t [] in
  Props (p_eols P) (p_elidable P) (p_conversion P) (p_bai_conversion P) (p_tense_ctx P) (p_glosstype P) (p_dont_gloss P) (p_connective P)
    (tags_at (walked t)) (p_rel_clause_link P) (p_antecedent P).
Lemma peqb_eq x y : peqb x y = true <-> x = y.
Proof. unfold peqb. destruct (list_eq_dec Nat.eq_dec x y) as [E | E]; split; intro H; trivial; [discriminate H | destruct (E H)]. Qed.
Lemma tags_at_in es x l : In l (tags_at es x) <-> In (Tagged x l) es.
Proof.
  unfold tags_at. rewrite in_flat_map. split.
  - intros (e & I & J). destruct e as [y m | | | | ]; try (destruct J; fail).
    destruct (peqb y x) eqn:E; [| destruct J]. apply peqb_eq in E. destruct J as [J | []]. subst. exact I.
  - intro I. exists (Tagged x l). split; [exact I |]. cbv beta iota. rewrite (proj2 (peqb_eq x x) eq_refl). left. reflexivity.
Qed.
Lemma brackets_at_in es q : In (Brackets q) es -> brackets_at es q = true.
Proof. intro I. unfold brackets_at. apply existsb_exists. exists (Brackets q). split; [exact I |]. apply peqb_eq. reflexivity. Qed.
(* a dictionary for the places *)
Definition ex_places (w : string) (n : Z) (c : tctx) : outcome string := Ok (if String.eqb w "me" then "thing of #%d" else "party to event").
Definition ex_labelled (t : tree) : outcome (list call) :=
  do_output ex_dict ex_places ex_unk (ex_walk_props t) (add_bracketing_tags (brackets_at (walked t)) (expand_bahe_ui t)).
(* the hypotheses of the theorems *)
Definition ex_meets (t : tree) (calls : list call) : Prop :=
  parse_tree t /\ exists es cs, terms_processing (expand_bahe_ui t) = Ok es /\
    (forall x l, In l (p_term_tags (ex_walk_props t) x) <-> In (Tagged x l) es) /\
    (forall q, In (Brackets q) es -> brackets_at (walked t) q = true) /\
    ex_labelled t = Ok cs /\ filter visible cs = calls.
Lemma meets t calls : parse_treeb t = true ->
  match terms_processing (expand_bahe_ui t) with Ok _ => true | _ => false end = true ->
  match ex_labelled t with Ok cs => Some (filter visible cs) | _ => None end = Some calls -> ex_meets t calls.
Proof.
  intros A B C. split; [apply parse_treeb_ok; exact A |].
  destruct (terms_processing (expand_bahe_ui t)) as [es | | | | ] eqn:E; try discriminate B.
  assert (W : walked t = es) by (unfold walked; rewrite E; reflexivity).
  destruct (ex_labelled t) as [cs | | | | ] eqn:F; try discriminate C.
  exists es, cs. split; [reflexivity |]. split; [| split; [| split; [reflexivity | injection C as C; exact C]]].
  - intros x l. rewrite <- W. apply tags_at_in.
  - intros q I. rewrite W. apply brackets_at_in, I.
Qed.

Example C75_case : ex_meets WalkProps.ex_bridi
  [Open BR_SQUARE 1; Open BR_ROUND 2; StartTags; StartTag; TagText "klama" "2" "party to event" true; EndTags; Loj "mi"; Eng "I/me"; Close BR_ROUND 2;
   Eng "[is, does]"; Open BR_TRIANGLE 3; Open BR_FLOOR 4; Open BR_BRACE 5; Loj "barda"; Eng "?barda"; Loj "be";
   Open BR_ROUND 6; StartTags; StartTag; TagText "barda" "2" "party to event" true; EndTags; Loj "ti"; Close BR_ROUND 6; Close BR_BRACE 5;
   Eng "[type-of]"; Loj "se"; Loj "klama"; Eng "?klama"; Close BR_FLOOR 4; Close BR_TRIANGLE 3;
   Open BR_ROUND 7; StartTags; StartTag; TagText "klama" "1" "party to event" true; EndTags; Loj "do"; Close BR_ROUND 7; Close BR_SQUARE 1].
Proof. apply meets; vm_compute; reflexivity. Qed.
Example C75_numbers_case : ex_meets ex_me
  [Open BR_SQUARE 1; Open BR_ROUND 2; StartTags; StartTag; TagText "me" "1.." "thing of #4" true; EndTags; Loj "mi"; Eng "I/me"; Close BR_ROUND 2;
   Eng "[is, does]"; Open BR_TRIANGLE 3; Loj "me"; Open BR_CEIL 4; Loj "do"; Close BR_CEIL 4; Close BR_TRIANGLE 3; Close BR_SQUARE 1] /\
  exists x q l, tags_at (walked ex_me) x = [l] /\ by_number l q.
Proof.
  split; [apply meets; vm_compute; reflexivity |].
  assert (E : exists x q, match tags_at (walked ex_me) x with [TTT_ME r 1%Z] => peqb r q | _ => false end = true)
    by (exists [0;0;0;0;0;0;0;0;0;0;0;0;0;0;0], [0;0;0;0;0;0;0;0;0;0;0;1;0;0;0;0;0;0;0;0;0;0;0;0;0;0;1]; vm_compute; reflexivity).
  destruct E as (x & q & E). exists x, q. destruct (tags_at (walked ex_me) x) as [| l [|]]; try discriminate E; [| destruct l as [ | | | r [|[]|] | | | | ]; discriminate E].
  exists l. split; [reflexivity |]. destruct l as [ | | | r [|[]|] | | | | ]; try discriminate E. apply peqb_eq in E. subst. constructor.
Qed.
(* the numbers of a tree *)
Fixpoint numbers (a : atree) : list nat :=
  match a with ALeaf _ _ n => [n] | ANT _ _ n ch => n :: flat_map numbers ch end.
Lemma numbers_in : forall p a, match asub a p with Some (ANT _ _ n _) => In n (numbers a) | _ => True end.
Proof.
  induction p as [| i p IH]; intro a.
  - destruct a; cbn; auto.
  - cbn [asub]. destruct a as [x b n | k b n ch]; cbn; auto. destruct (nth_error ch i) as [c |] eqn:E; [| exact I].
    specialize (IH c). destruct (asub c p) as [[| k' b' n' ch'] |]; auto. right. apply in_flat_map. exists c. split; [eapply nth_error_In; eauto | exact IH].
Qed.
Example C75_complete_case : complete_places ex_places (expand_bahe_ui ex_me) /\
  forall q n, number (add_bracketing_tags (brackets_at (walked ex_me)) (expand_bahe_ui ex_me)) q = Some n -> few_digits n.
Proof.
  split.
  - intros w n _ _. unfold ex_places. destruct (String.eqb w "me").
    + eexists. split; [reflexivity |]. intros k F. eexists. split; [exact (tm_number "thing of #" "" k eq_refl eq_refl) |].
      unfold short, few_digits in *. rewrite !DrvProofs.slen_app. cbn [String.length]. Lia.lia.
    + eexists. split; [reflexivity |]. intros k _. eexists. split; [exact (tm_plain "party to event" k eq_refl) |]. vm_compute. intro H; discriminate H.
  - intros q n N. unfold number in N. pose proof (numbers_in q (add_bracketing_tags (brackets_at (walked ex_me)) (expand_bahe_ui ex_me))) as I.
    destruct (asub _ q) as [[| k' b' n' ch'] |]; try discriminate N. injection N as ->.
    assert (F : forallb (fun n => (N.of_nat (String.length (TransModel.zdec (Z.of_nat n))) <=? 100)%N) (numbers (add_bracketing_tags (brackets_at (walked ex_me)) (expand_bahe_ui ex_me))) = true)
      by (vm_compute; reflexivity).
    rewrite forallb_forall in F. apply N.leb_le, F, I.
Qed.
