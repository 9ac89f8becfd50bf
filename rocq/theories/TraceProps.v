(* Property theorems C82: what is recorded and told about a syntax error. *)
From Coq Require Import String List NArith Bool Arith.
From Verif Require Import Base TokData TokModel StreamModel TreeModel GramModel GramProofs TraceModel TraceSpec TraceProofs TraceProofs2 TraceProofs3.
From Verif Require Import WalkModel.
From Verif Require WalkProps ErasureProps.
Import ErasureProps(cm, bv).
Import ListNotations.
Open Scope string_scope.
Open Scope list_scope.

(* Whatever the parser does, the reductions recorded are those since the last word it read, all
   of them and in order, provided it nowhere reduces more than 1024 times in a row;
   otherwise memory past the end of the array is written. *)
Theorem C82_recorded : forall es,
  (forall l, records es [] = Ok l <-> rows_of_at_most 1024 es /\ since_last_word es l) /\
  (~ rows_of_at_most 1024 es -> records es [] = UB UB_bounds).
Proof. intro es. split; [intro l; exact (recorded es l) | exact (not_recorded es)]. Qed.
Print Assumptions C82_recorded.
Example C82_recorded_case : records [Reduce 1 2; Shift; Reduce 3 4; Reduce 5 6] [] = Ok [(3, 4); (5, 6)].
Proof. reflexivity. Qed.

(* A text whose parse tree is less than 342 nodes deep never overruns it. *)
Theorem C82_safe : forall t es, parse_tree t -> parses t es -> height t < 342 -> exists l, records es [] = Ok l.
Proof.
  intros t es (C & _) P H. apply (safe_tree t es P).
  - destruct t as [x|ty ch]; [discriminate C |]. cbn [is_nt] in C. apply String.eqb_eq in C. subst. exists ch. reflexivity.
  - unfold max_reductions. apply Nat.le_trans with (3 * 341 + 1); [| repeat constructor]. apply Nat.add_le_mono_r, Nat.mul_le_mono_l. apply Nat.lt_succ_r. exact H.
Qed.
Print Assumptions C82_safe.
(* every parse tree is built in some way *)
Example C82_safe_case : parse_tree WalkProps.ex_bridi /\ height WalkProps.ex_bridi < 342 /\ exists es, parses WalkProps.ex_bridi es.
Proof.
  assert (T : parse_tree WalkProps.ex_bridi) by (apply parse_treeb_ok; vm_compute; reflexivity).
  split; [exact T |]. split; [apply Nat.ltb_lt; vm_compute; reflexivity |].
  destruct T as (_ & D & _). pose proof (derived_builds _ D) as B. cbn in B. destruct B as (e & B). exists (e ++ [Reduce 0 0]). constructor. exact B.
Qed.

(* A text in which more than 1024 nodes end together always overruns it, though nothing is wrong with
   the text. *)
Theorem C82_deep : forall t p u n es, parses t es -> subtree t p = Some u -> end_together u n -> 1024 < n -> records es [] = UB UB_bounds.
Proof. exact overrun. Qed.
Print Assumptions C82_deep.

(* n times na, then klama *)
Fixpoint nas (n : nat) : tree :=
  match n with
  | O => NT "SELBRI" [NT "SELBRI_1" [NT "SELBRI_2" [NT "SELBRI_3" [NT "SELBRI_4" [NT "SELBRI_5" [NT "SELBRI_6" [NT "TANRU_UNIT" [NT "TANRU_UNIT_1" [NT "TANRU_UNIT_2" [Leaf (bv "klama")]]]]]]]]]]
  | S n => NT "SELBRI" [NT "SELBRI_1" [Leaf (cm "na"); nas n]]
  end.
Definition na_text (n : nat) : tree :=
  NT "CHUNKS" [NT "TEXT" [NT "TEXT_1" [NT "PARAGRAPHS" [NT "PARAGRAPH" [NT "STATEMENT" [NT "INNER_STATEMENT" [NT "STATEMENT_1" [NT "STATEMENT_2" [NT "STATEMENT_3" [NT "SENTENCE" [NT "OBSERVATIVE_SENTENCE" [NT "BRIDI_TAIL" [NT "BRIDI_TAIL_1" [NT "BRIDI_TAIL_2" [NT "BRIDI_TAIL_3" [NT "MAIN_SELBRI" [nas n]]]]]]]]]]]]]]]]].
Theorem C82_overrun_refuted : exists t, parse_tree t /\ (exists es, parses t es) /\ forall es, parses t es -> records es [] = UB UB_bounds.
Proof.
  assert (T : parse_tree (na_text 515)) by (apply parse_treeb_ok; vm_compute; reflexivity).
  exists (na_text 515). split; [exact T |]. split.
  - destruct T as (_ & D & _). pose proof (derived_builds _ D) as B. cbv beta iota delta [na_text] in B. destruct B as (e & B). exists (e ++ [Reduce 0 0]). constructor. exact B.
  - assert (E : forall n, end_together (nas n) (2 * n + 1)).
    { assert (M : ~ In "SELBRI" marked_end /\ ~ In "SELBRI_1" marked_end) by (split; cbn [marked_end In]; intuition discriminate).
      destruct M as [M1 M2]. induction n as [|n IH]; [apply one_node |].
      assert (X : exists ch, nas n = NT "SELBRI" ch) by (destruct n; eexists; reflexivity). destruct X as (ch & X).
      replace (2 * S n + 1) with (S (S (2 * n + 1))) by (cbn; rewrite !Nat.add_succ_r; reflexivity). cbn [nas]. rewrite X in *.
      apply (last_child "SELBRI" [] "SELBRI_1"); [exact M1 |]. apply (last_child "SELBRI_1" [Leaf (cm "na")] "SELBRI"); [exact M2 | exact IH]. }
    intros es P. apply (overrun _ [0; 0; 0; 0; 0; 0; 0; 0; 0; 0; 0; 0; 0; 0; 0; 0; 0] (nas 515) (2 * 515 + 1) es P); [reflexivity | exact (E 515) | apply Nat.ltb_lt; vm_compute; reflexivity].
Qed.
Print Assumptions C82_overrun_refuted.

(* With a syntax error the word at which the parser stopped is shown, and the up to eight words before
   it, the latest first; at the end of the text, that and the last eight words. *)
Theorem C82_words : forall name ssm eof out,
  (forall before x after, print_last_toks name ssm (before ++ x :: after) (Stream (S (List.length before)) eof) = Ok out <->
     exists w r, details name ssm x = Ok w /\ shown name ssm (firstn 8 (rev before)) r /\ out = heading w r) /\
  (forall ts, print_last_toks name ssm ts (Stream 0 eof) = Ok out <->
     exists r, shown name ssm (firstn 8 (rev ts)) r /\ out = heading ("  <End of text>" ++ nl)%string r).
Proof. intros name ssm eof out. split; [intros b x a; apply words_at | intro ts; apply words_end]. Qed.
Print Assumptions C82_words.
Example C82_words_case :
  print_last_toks (fun _ => "") (fun _ => "X") [cm "mi"; bv "klama"; cm "ku"; cm "do"] (Stream 3 false) =
  Ok (heading ("  ku [X] (line 1, col 1)" ++ nl) ("  klama [BRIVLA] (line 1, col 1)" ++ nl ++ "  mi [X] (line 1, col 1)" ++ nl))%string.
Proof. vm_compute. reflexivity. Qed.

(* With -bt the report tells what was reduced since the last word, the state in which the parser is stuck,
   with the classes of words that could have come, and all states it is in the middle of, innermost
   first; markers are never named. *)
Theorem C82_report : forall T name ssm ts s l st below w, print_last_toks name ssm ts s = Ok w ->
  exists out, report_trace_error true T name ssm ts s l st below =
    Ok (out, "--------------------" ++ nl ++ "SYNTAX ERROR IN TEXT" ++ nl ++ "--------------------" ++ nl ++ w ++ "--------------------" ++ nl ++ String.concat "" (report_lines T l st below))%string.
Proof. exact report_err. Qed.
Print Assumptions C82_report.
Definition ex_tables : tables := Tables (fun r => if Nat.eqb r 7 then "sumti" else "term") (fun r => if Nat.eqb r 7 then ["PRIVATE_START"; "LE"; "selbri"; "KU"] else ["sumti"]) (fun s => if Nat.eqb s 3 then [(7, 3)] else [(8, 0)]) (fun _ => ["PRIVATE_END"; "KU"; "BO"]).
Example C82_report_case : report_lines ex_tables [(4, 8)] 3 [5; 6] =
  ["=============================================="; nl; "Rules reduced since misparsed token was read :"; nl; "=============================================="; nl;
   "Rule 8 : term <- sumti" ++ nl; "   (Next word class could be : KU BO)" ++ nl;
   "=========================="; nl; "Jammed parser state ("; "3"; ") :"; nl; "=========================="; nl;
   "Rule 7 : sumti <-  LE selbri . KU" ++ nl; nl; "Next word class could be : "; "KU BO"; nl; nl;
   "========================================================="; nl; "Pending parser states (innermost first, outermost last) :"; nl; "========================================================="; nl;
   "State "; "5"; nl; "Rule 8 : term <- sumti" ++ nl; "---------------------------"; nl;
   "State "; "6"; nl; "Rule 8 : term <- sumti" ++ nl; "---------------------------"; nl]%string%list.
Proof. vm_compute. reflexivity. Qed.

(* Without -bt nothing is written on standard output. *)
Theorem C82_quiet : forall T name ssm ts s l st below out e, report_trace_error false T name ssm ts s l st below = Ok (out, e) -> out = "".
Proof.
  intros T name ssm ts s l st below out e. rewrite report_short. destruct (print_last_toks name ssm ts s); cbn [obind]; intro H; try discriminate H. injection H as <- _. reflexivity.
Qed.
Print Assumptions C82_quiet.
(* With it, one space for each production shown is. *)
Theorem C82_stdout : forall T name ssm ts s l st below out e, report_trace_error true T name ssm ts s l st below = Ok (out, e) ->
  out = spaces (productions T l st below).
Proof. exact report_out. Qed.
Print Assumptions C82_stdout.
Theorem C82_stdout_refuted : ~ forall T name ssm ts s l st below out e, report_trace_error true T name ssm ts s l st below = Ok (out, e) -> out = "".
Proof.
  intro H. specialize (H (Tables (fun _ => "a") (fun _ => ["B"]) (fun _ => [(7, 1)]) (fun _ => ["C"])) (fun _ => "") (fun _ => "") [] stream0 [] 3 [] " ").
  assert (E : exists e, report_trace_error true (Tables (fun _ => "a") (fun _ => ["B"]) (fun _ => [(7, 1)]) (fun _ => ["C"])) (fun _ => "") (fun _ => "") [] stream0 [] 3 [] = Ok (" ", e)) by (eexists; vm_compute; reflexivity).
  destruct E as (e & E). discriminate (H e E).
Qed.
Print Assumptions C82_stdout_refuted.
