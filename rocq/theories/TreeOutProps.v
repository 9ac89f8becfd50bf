(* C18, C19, C45, C49: expansion of emphasis and indicators, compression, the
   bracketed text and the indented tree. *)
From Coq Require Import String Ascii List NArith Bool Arith.
From Verif Require Import Base TokData CmavoData TokModel ErasureSpec ErasureProofs ErasureProps Lex2Spec
  TreeModel TreeOutModel TreeOutSpec TreeOutProofs TreeOutProofs2 TidyProofs.
Import ListNotations.
Open Scope string_scope.
Open Scope list_scope.

(* ---- C18 ---- *)
(* the words of the expanded tree are those of the tree with everything attached
   to them, in text order, each exactly once *)
Theorem C18_expansion : forall ty ch, Forall tidy (leaves (NT ty ch)) ->
  map alone (leaves (expand_bahe_ui (NT ty ch))) = flat_map attached (leaves (NT ty ch)).
Proof. exact expand_words. Qed.
Print Assumptions C18_expansion.
Theorem C18_spelling : forall ty ch, Forall tidy (leaves (NT ty ch)) ->
  flat_map spell (map alone (leaves (expand_bahe_ui (NT ty ch)))) = flat_map spell (leaves (NT ty ch)).
Proof. exact expand_spelling. Qed.
Print Assumptions C18_spelling.
(* each constituent stays at its place with its children; a word is replaced by a
   group of exactly what is attached to it *)
Theorem C18_shape : forall ty ch p,
  match subtree (NT ty ch) p with
  | Some (NT ty' ch') => exists ch2, subtree (expand_bahe_ui (NT ty ch)) p = Some (NT ty' ch2) /\ List.length ch2 = List.length ch'
  | Some (Leaf x) => subtree (expand_bahe_ui (NT ty ch)) p = Some (expand_leaf x) /\
      (tidy x -> map alone (leaves (expand_leaf x)) = attached x)
  | None => True
  end.
Proof. exact expand_shape. Qed.
Print Assumptions C18_shape.
Theorem C18_nothing_attached : forall ty ch, Forall unattached (leaves (NT ty ch)) -> expand_bahe_ui (NT ty ch) = NT ty ch.
Proof. exact expand_nothing. Qed.
Print Assumptions C18_nothing_attached.
Theorem C18_nothing_left : forall ty ch, Forall tidy (leaves (NT ty ch)) ->
  Forall (fun x => ui x = []) (leaves (expand_bahe_ui (NT ty ch))).
Proof. exact expand_done. Qed.
Print Assumptions C18_nothing_left.
(* and the tokens that reach the parser are always of that kind *)
Theorem C18_tokens_tidy : forall l r m b, Forall (fun n => bahe n = None /\ ui n = []) l ->
  group_tokens l = Ok (r, m, b) -> Forall tidy r.
Proof. exact group_tidy. Qed.
Print Assumptions C18_tokens_tidy.

Definition w_mi : node := Eval vm_compute in cm "mi".
Definition w_ui : node := Eval vm_compute in cm "ui".
Definition w_oi : node := Eval vm_compute in cm "oi".
Definition w_bahe : node := Eval vm_compute in cm "ba'e".
Definition w_zahe : node := Eval vm_compute in cm "za'e".
Definition w_ku : node := Eval vm_compute in cm "ku".
Definition w_cai : node := Eval vm_compute in cm "cai".
Definition ex_word : node :=
  set_ui [set_neg true w_ui; set_bahe (Some w_bahe) w_oi]
    (set_bahe (Some (set_bahe (Some w_bahe) w_zahe)) (bv "klama")).
Definition ex_tree : tree := NT "A" [Leaf w_mi; NT "B" [Leaf ex_word]].
Example C18_ex_hyp : Forall tidy (leaves ex_tree).
Proof.
  assert (U : forall n, bahe n = None -> ui n = [] -> tidy n).
  { intros n B E. constructor; [rewrite B; discriminate | rewrite E; constructor]. }
  unfold ex_tree. cbn [leaves flat_map app]. apply Forall_cons; [apply U; reflexivity |]. apply Forall_cons; [| apply Forall_nil].
  unfold ex_word. constructor.
  - intros z E. injection E as <-. split; [reflexivity |]. constructor; [| apply Forall_nil].
    intros z E. injection E as <-. split; [reflexivity | apply U; reflexivity].
  - cbn [ui set_ui]. apply Forall_cons; [| apply Forall_cons; [| apply Forall_nil]].
    + apply U; reflexivity.
    + constructor; [| apply Forall_nil]. intros z E. injection E as <-. split; [reflexivity | apply U; reflexivity].
Qed.
Example C18_ex : flat_map spell (map alone (leaves (expand_bahe_ui ex_tree))) =
  ["mi"; "ba'e"; "za'e"; "klama"; "ui"; "nai"; "ba'e"; "oi"].
Proof. vm_compute. reflexivity. Qed.

(* ---- C19 ---- *)
Theorem C19_words : forall t, leaves (compress_singletons t) = leaves t.
Proof. exact compress_leaves. Qed.
Print Assumptions C19_words.
(* only levels of a single child are removed *)
Theorem C19_only_levels : forall t, shrinks t (compress_singletons t).
Proof. exact compress_shrinks. Qed.
Print Assumptions C19_only_levels.
(* none is left below the top *)
Theorem C19_all_levels : forall t ty ch, compress_singletons t = NT ty ch -> Forall tight ch.
Proof. exact compress_tight. Qed.
Print Assumptions C19_all_levels.
(* and there is only one such tree *)
Theorem C19_unique : forall ty ch us, Forall2 shrinks ch us -> Forall tight us ->
  compress_singletons (NT ty ch) = NT ty us.
Proof. exact compress_unique. Qed.
Print Assumptions C19_unique.
Theorem C19_idempotent : forall t, compress_singletons (compress_singletons t) = compress_singletons t.
Proof. exact compress_twice. Qed.
Print Assumptions C19_idempotent.
(* a new node holds exactly the constituents that are there *)
Theorem C19_new_node : forall ty ch,
  leaves (new_node ty ch) = flat_map (fun c => match c with Some c => leaves c | None => [] end) ch.
Proof. exact new_node_leaves. Qed.
Print Assumptions C19_new_node.
Example C19_ex :
  compress_singletons (NT "A" [NT "B" [NT "C" [NT "D" [Leaf w_mi]; NT "E" []]]]) = NT "A" [NT "C" [Leaf w_mi; NT "E" []]].
Proof. vm_compute. reflexivity. Qed.

(* ---- C45 ---- *)
(* for any line breaks, glosses and elided words: *)
(* brackets are in pairs *)
Theorem C45_balanced : forall elidable eols glossing translate translate_unknown t,
  balanced (print_bracketed_text elidable eols glossing translate translate_unknown t).
Proof. exact bal_text_all. Qed.
Print Assumptions C45_balanced.
(* the output without blanks and glosses is one pair of brackets around each
   constituent, with the words in order *)
Theorem C45_words : forall elidable eols glossing translate translate_unknown t,
  Forall (faithful elidable) (leaves t) ->
  filter visible (print_bracketed_text elidable eols glossing translate translate_unknown t) = bracketed elidable 0 t.
Proof. exact vis_text. Qed.
Print Assumptions C45_words.
(* words never run together: what comes before a word is never a word or a gloss *)
Theorem C45_spacing : forall elidable eols glossing translate translate_unknown t a x y b,
  print_bracketed_text elidable eols glossing translate translate_unknown t = a ++ x :: Text y :: b ->
  match x with Text _ | Gloss _ => False | _ => True end.
Proof. exact text_spacing. Qed.
Print Assumptions C45_spacing.

Definition no_gloss : string -> option string := fun _ => None.
Definition plain_print (t : tree) : string :=
  fold_right (fun p s => (render p ++ s)%string) "" (print_bracketed_text (fun x => cmtest x T_KU) (fun _ => 0) false no_gloss no_gloss t).
Example C45_ex : plain_print (compress_singletons (expand_bahe_ui (NT "A" [Leaf w_mi; NT "B" [Leaf ex_word; Leaf w_ku]]))) =
  "(0mi [{ba'e za'e klama ui nai <ba'e oi>} KU])0
".
Proof. vm_compute. reflexivity. Qed.
Example C45_ex_hyp : Forall (faithful (fun x => cmtest x T_KU))
  (leaves (expand_bahe_ui (NT "A" [Leaf w_mi; NT "B" [Leaf ex_word; Leaf w_ku]]))).
Proof.
  cbn [expand_bahe_ui map expand_internal leaves flat_map app expand_leaf bahe_chain w_mi ex_word set_ui set_bahe bv w_zahe w_bahe w_ui w_oi w_ku set_neg option_map].
  repeat apply Forall_cons; try apply Forall_nil; cbn [faithful dat cai neg]; try exact I;
    try (right; right; right; split; reflexivity).
  right; left. split; [vm_compute; reflexivity | discriminate].
Qed.

(* pei nai is printed as pei *)
Theorem C45_pei_nai_refuted : exists t,
  filter visible (print_bracketed_text (fun _ => false) (fun _ => 0) false no_gloss no_gloss t) <> bracketed (fun _ => false) 0 t /\
  filter visible (print_bracketed_text (fun _ => false) (fun _ => 0) false no_gloss no_gloss t) = [Open 0; Text "ui pei"; Close 0].
Proof.
  exists (NT "A" [Leaf (set_cai (Some CC_PEINAI) w_ui)]). split; [vm_compute; discriminate | vm_compute; reflexivity].
Qed.
Print Assumptions C45_pei_nai_refuted.
(* la'o is printed as zoi *)
Theorem C45_laho_refuted : exists t,
  filter visible (print_bracketed_text (fun _ => false) (fun _ => 0) false no_gloss no_gloss t) <> bracketed (fun _ => false) 0 t /\
  filter visible (print_bracketed_text (fun _ => false) (fun _ => 0) false no_gloss no_gloss t) = [Open 0; Text "zoi gy Jane gy"; Close 0].
Proof.
  exists (NT "A" [Leaf (Node (N_ZOI "la'o" "gy" "Jane") 1 1 None false None [])]). split; [vm_compute; discriminate | vm_compute; reflexivity].
Qed.
Print Assumptions C45_laho_refuted.

(* ---- C49 ---- *)
(* the indented listing determines the tree *)
Theorem C49_listing : forall elidable selmao_name t u,
  Forall no_cai_nai (leaves t) -> Forall no_cai_nai (leaves u) ->
  print_tree elidable selmao_name t 0 = print_tree elidable selmao_name u 0 ->
  skeleton elidable selmao_name t = skeleton elidable selmao_name u.
Proof. exact print_tree_inj. Qed.
Print Assumptions C49_listing.
Example C49_ex :
  Forall no_cai_nai (leaves ex_tree) /\
  print_tree (fun _ => false) (fun _ => "X") (NT "A" [NT "B" [Leaf (bv "a")]; Leaf (bv "b")]) 0 =
    [(Some 2, "BRIVLA : a"); (Some 1, "B"); (Some 1, "BRIVLA : b"); (Some 0, "A")] /\
  print_tree (fun _ => false) (fun _ => "X") (NT "A" [NT "B" [Leaf (bv "a"); Leaf (bv "b")]]) 0 =
    [(Some 2, "BRIVLA : a"); (Some 2, "BRIVLA : b"); (Some 1, "B"); (Some 0, "A")].
Proof.
  split; [| split; vm_compute; reflexivity]. unfold ex_tree. cbn [leaves flat_map app].
  constructor; [vm_compute; discriminate |]. constructor; [vm_compute; exact I | constructor].
Qed.
(* the nai of a cai that stands as a word by itself is printed without the indent,
   at the level of the top of the tree *)
Theorem C49_cai_nai_refuted : exists t,
  print_tree (fun _ => false) (fun _ => "CAI") t 0 =
    [(Some 1, "CMAVO : cai [CAI]"); (None, "CMAVO : nai [NAI]"); (Some 0, "A")].
Proof. exists (NT "A" [Leaf (set_neg true w_cai)]). vm_compute. reflexivity. Qed.
Print Assumptions C49_cai_nai_refuted.

(* the characters printed: the picture of the constituents, each below its parts,
   with one branch per level *)
Theorem C49_picture : forall elidable selmao_name t, Forall no_cai_nai (leaves t) ->
  print_parse_tree elidable selmao_name t = String.concat "" (map (drawn 0) (skeleton elidable selmao_name t)).
Proof. exact picture_exact. Qed.
Print Assumptions C49_picture.
Example C49_picture_ex :
  print_parse_tree (fun _ => false) (fun _ => "X") (NT "A" [NT "B" [Leaf (bv "a")]; Leaf (bv "b")]) =
    ("| +-BRIVLA : a" ++ nl ++ "+-B" ++ nl ++ "+-BRIVLA : b" ++ nl ++ "A" ++ nl)%string.
Proof. vm_compute. reflexivity. Qed.

(* no two trees whose labels keep to their lines look the same on the screen *)
Theorem C49_text : forall elidable selmao_name t u,
  Forall no_cai_nai (leaves t) -> Forall no_cai_nai (leaves u) ->
  Forall plain_sk (skeleton elidable selmao_name t) -> Forall plain_sk (skeleton elidable selmao_name u) ->
  print_parse_tree elidable selmao_name t = print_parse_tree elidable selmao_name u ->
  skeleton elidable selmao_name t = skeleton elidable selmao_name u.
Proof. exact picture_inj. Qed.
Print Assumptions C49_text.
Example C49_text_ex :
  Forall plain_sk (skeleton (fun _ => false) (fun _ => "X") (NT "A" [NT "B" [Leaf (bv "a")]; Leaf (bv "b")])).
Proof.
  assert (P : forall l, forallb (fun c => negb (Ascii.eqb c (Ascii.ascii_of_nat 10))) (list_ascii_of_string l) = true ->
    match l with String c _ => c <> "+"%char /\ c <> "|"%char | EmptyString => True end -> plain_label l).
  { intros l F Q. split; [| exact Q]. intro I. rewrite forallb_forall in F. specialize (F _ I).
    rewrite Ascii.eqb_refl in F. discriminate F. }
  repeat first [apply Forall_nil | apply Forall_cons | apply ps_intro | apply P; [reflexivity | split; discriminate]].
Qed.
(* a quotation that runs over the end of a line can look like further words *)
Theorem C49_newline_refuted : exists t u,
  print_parse_tree (fun _ => false) (fun _ => "X") t = print_parse_tree (fun _ => false) (fun _ => "X") u /\
  leaves t <> leaves u /\ List.length (leaves t) <> List.length (leaves u).
Proof.
  exists (NT "A" [Leaf (Node (N_ZOI "zoi" "gy" ("x" ++ nl ++ "+-ZO  : y")) 1 1 None false None [])]).
  exists (NT "A" [Leaf (Node (N_ZOI "zoi" "gy" "x") 1 1 None false None []); Leaf (Node (N_ZO "y") 1 1 None false None [])]).
  split; [vm_compute; reflexivity |]. split; discriminate.
Qed.
Print Assumptions C49_newline_refuted.
