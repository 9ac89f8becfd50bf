(* C85: what the scanner of dfasyn makes of a description. *)
From Coq Require Import Ascii String List NArith Bool.
From Verif Require Import FlexModel FlexSpec FlexProofs FlexProofs2 FlexProofs3 FlexProofs4.
Import ListNotations.
Open Scope string_scope.
Open Scope list_scope.

(* every text is read to its end *)
Theorem C85_total : forall s, exists r, lex s = Some r.
Proof. exact lex_total. Qed.
Print Assumptions C85_total.
(* a description laid out of words, signs, spaces, line ends, remarks, quotations and code
   has a reading, and it is the one the scanner gives *)
Theorem C85_reading : forall l, laid_out true l -> exists ts o, reads 1 l ts o.
Proof. exact (fun l H => reads_some l true 1 H). Qed.
Print Assumptions C85_reading.
Theorem C85_tokens : forall l ts o, laid_out true l -> reads 1 l ts o -> lex (text l) = Some (ts, o).
Proof. exact lex_pieces. Qed.
Print Assumptions C85_tokens.
(* spaces, line ends and remarks make no difference but in the line numbers *)
Theorem C85_layout : forall l l', laid_out true l -> laid_out true l' -> matter l = matter l' ->
  exists ts ts' o, lex (text l) = Some (ts, o) /\ lex (text l') = Some (ts', o) /\ map fst ts = map fst ts'.
Proof. exact same_matter. Qed.
Print Assumptions C85_layout.
(* the line number of a word is right as long as there was no code and no quotation over
   several lines *)
Theorem C85_lines : forall l1 w l2, laid_out true (l1 ++ word w :: l2) -> Forall plain l1 ->
  exists ts1 ts2 k o, lex (text (l1 ++ word w :: l2)) = Some (ts1 ++ (k, (1 + line_ends (text l1))%N) :: ts2, o) /\ named w k /\
    List.length ts1 = List.length (matter l1).
Proof. exact line_numbers. Qed.
Print Assumptions C85_lines.
(* every word is one token: a keyword in its spellings, else a name *)
Theorem C85_words : forall w, exists k, named w k /\ forall k', named w k' -> k' = k.
Proof.
  exact (fun w => match every_named w with ex_intro _ k K => ex_intro _ k (conj K (fun k' K' => eq_trans (word_named w k' K') (eq_sym (word_named w k K)))) end).
Qed.
Print Assumptions C85_words.

(* after code, and after a quotation over several lines, the line numbers are too small *)
Theorem C85_line_refuted : exists l1 w ts o n, laid_out true (l1 ++ [word w]) /\
  lex (text (l1 ++ [word w])) = Some (ts ++ [(T_STRING w, n)], o) /\ n <> (1 + line_ends (text l1))%N.
Proof.
  exists [code "" "" ["x"]; end_of_line], "a", [], (line_of "x"), 3%N. split; [|split; [vm_compute; reflexivity|discriminate]].
  repeat (constructor; try discriminate; cbn; auto); unfold lacks; cbn; intuition discriminate.
Qed.
Print Assumptions C85_line_refuted.
(* a remark on a last line without an end is not skipped: its words are read *)
Theorem C85_remark_refuted : exists s ts o, lacks newline s /\ lex ("#" ++ s) = Some (ts, o) /\ ts <> [].
Proof. exists " type", [(T_TYPE, 1%N)], "#". split; [unfold lacks; cbn; intuition discriminate|]. split; [vm_compute; reflexivity|discriminate]. Qed.
Print Assumptions C85_remark_refuted.
(* the empty quotation is no token at all *)
Theorem C85_empty_refuted : lex "= """"" = Some ([(T_EQUAL, 1%N)], "").
Proof. vm_compute. reflexivity. Qed.
Print Assumptions C85_empty_refuted.

(* a description that meets the hypotheses, and its reading *)
Definition example : list piece :=
  [code " " "" ["#include ""x.h"""; ""; "%}x"]; remark " State machine"; word "State"; spaces " "; word "state1"; end_of_line;
   spaces "  "; word "A"; sign "|"; quoted "A->B
state"; sign "->"; word "z.0"; end_of_line; word "EndBlock"].
Example C85_case : laid_out true example /\ lex (text example) =
  Some ([(T_STATE, 5%N); (T_STRING "state1", 5%N); (T_STRING "A", 6%N); (T_PIPE, 6%N); (T_STRING "A->B
state", 6%N); (T_ARROW, 6%N); (T_STRING "z.0", 6%N); (T_ENDBLOCK, 7%N)], "#include ""x.h""

%}x
").
Proof.
  split; [|vm_compute; reflexivity]. unfold example.
  assert (W : forall w, forallb name_charb (list_ascii_of_string w) = true -> all_of name_char w).
  { intros w H. unfold all_of. apply Forall_forall. intros c I. rewrite forallb_forall in H. specialize (H c I).
    unfold name_charb in H. apply existsb_exists in H. destruct H as [x [J Q]]. apply Ascii.eqb_eq in Q. now subst. }
  assert (K : forall c s, existsb (Ascii.eqb c) (list_ascii_of_string s) = false -> lacks c s).
  { intros c s H I. assert (X : existsb (Ascii.eqb c) (list_ascii_of_string s) = true) by (apply existsb_exists; exists c; split; [exact I|apply Ascii.eqb_refl]). congruence. }
  repeat (apply laid_cons; [cbn [sound]|intros; try discriminate; reflexivity|intros ? ? ? Q1 Q2; discriminate|intros ? ? ? Q1 Q2; discriminate|]);
    try apply laid_nil;
    try (split; [discriminate|apply W; reflexivity]); try (split; [discriminate|apply K; reflexivity]); try (apply K; reflexivity); try exact I.
  - split; [repeat constructor|split; [constructor|]]. repeat apply Forall_cons; try apply Forall_nil; (split; [apply K; reflexivity|]); intros c A Q; try discriminate.
    injection Q as <-. inversion A as [|? ? X Y]; subst. destruct X; discriminate.
  - split; [discriminate|repeat constructor].
  - split; [discriminate|repeat constructor].
  - exists T_PIPE. cbn. tauto.
  - exists T_ARROW. cbn. tauto.
Qed.
