(* C43: options, stages and exit status. *)
From Coq Require Import String List NArith ZArith Bool.
From Verif Require Import Base MainModel MainSpec MainProofs MainProofs2.
Import ListNotations.

Open Scope list_scope.

(* whatever the command line, each option is on just when it was given, the last width and
   the last file name count *)
Theorem C43_options : forall l, Forall proper l -> exists o, read_args (command l) options0 = Ok (P_run o) /\ asked o l.
Proof. exact options_asked. Qed.
Print Assumptions C43_options.

(* asking for help or the version ends with 0, an unknown option with 1, whatever follows *)
Theorem C43_help : forall l rest w s, Forall proper l -> In s ["--help"; "-h"; "-?"]%string ->
  main (command l ++ s :: rest) w = Ok ([A_usage], 0%N).
Proof. exact stop_help. Qed.
Print Assumptions C43_help.
Theorem C43_version : forall l rest w, Forall proper l -> main (command l ++ "-v"%string :: rest) w = Ok ([A_version], 0%N).
Proof. exact stop_version. Qed.
Print Assumptions C43_version.
Theorem C43_unknown : forall l rest w s, Forall proper l -> unknown s -> main (command l ++ s :: rest) w = Ok ([A_bad_option s], 1%N).
Proof. exact stop_unknown. Qed.
Print Assumptions C43_unknown.

(* the exit status of a run in which the file could be opened and no stage crashed *)
Theorem C43_status : forall o w tr st, opened o w -> run o w = (tr, st) -> calm w tr ->
  let full := require_elidables o in
  (st = 3%N <-> bad_words w) /\
  (st = 1%N <-> ~ bad_words w /\ parse_fails w full = true) /\
  (st = 2%N <-> ~ bad_words w /\ parse_fails w full = false /\ syntax_error w full = true) /\
  (st = 0%N <-> ~ bad_words w /\ parse_fails w full = false /\ syntax_error w full = false).
Proof. exact main_status. Qed.
Print Assumptions C43_status.
(* a crash is the last thing that happens and gives 1; so does a file that cannot be opened *)
Theorem C43_crash : forall o w tr st a, opened o w -> run o w = (tr, st) -> In a tr -> crashes w a = true ->
  st = 1%N /\ exists m, tr = m ++ [a].
Proof. exact main_crash. Qed.
Print Assumptions C43_crash.
Theorem C43_unopened : forall o w f, filename o = Some f -> opens w f = false -> crashes w A_incompatible = false ->
  snd (run o w) = 1%N /\ forall s, ~ In (A_read s) (fst (run o w)).
Proof. exact main_unopened. Qed.
Print Assumptions C43_unopened.
(* the text is printed once, in the chosen form, when the status is 0, and never otherwise *)
Theorem C43_output : forall o w tr st, opened o w -> run o w = (tr, st) -> calm w tr ->
  (st = 0%N -> exists a, chosen o a /\ filter prints tr = [a]) /\ (st <> 0%N -> filter prints tr = []).
Proof. exact main_prints. Qed.
Print Assumptions C43_output.
(* no stage runs before the stages it needs, whatever the options and the stages do *)
Theorem C43_order : forall o w tr st, run o w = (tr, st) -> in_order tr.
Proof. exact main_order. Qed.
Print Assumptions C43_order.
(* the tree is compressed for the brackets and for -t, not for -tf; the token lists, the
   memory report and the warning appear when they are asked for *)
Theorem C43_extras : forall o w tr st, opened o w -> run o w = (tr, st) -> calm w tr ->
  (In A_compress tr <-> st = 0%N /\ (show_tree o = true /\ full_tree o = false \/
     show_tree o = false /\ latex o = false /\ textout o = false /\ htmlout o = false)) /\
  (In A_tokens_before tr <-> token_lists o = true /\ bad_reading w = false) /\
  (In A_tokens_after tr <-> token_lists o = true /\ ~ bad_words w) /\
  (In A_memory tr <-> show_memory o = true /\ ~ bad_words w) /\
  (In A_incompatible tr <-> require_elidables o = true /\ show_elisions o = true).
Proof. exact main_extras. Qed.
Print Assumptions C43_extras.

Definition world0 (fails err : bool) : world :=
  World (fun f => negb (String.eqb f "none")) false false (fun _ => fails) (fun _ => err) (fun _ => false).
Example C43_example :
  Forall proper [Flag F_x; Width true [6; 0]; Flag F_b; Width false [1; 0; 0]; File "text"; Flag F_re; Flag F_sev] /\
  command [Flag F_x; Width true [6; 0]; Flag F_b; Width false [1; 0; 0]; File "text"; Flag F_re; Flag F_sev] =
    ["-x"; "-w60"; "-b"; "-w"; "100"; "text"; "-re"; "-sev"]%string /\
  main ["-x"; "-w60"; "-b"; "-w"; "100"; "text"; "-re"; "-sev"]%string (world0 false false) =
    Ok ([A_incompatible; A_read (Some "text"%string); A_preprocess; A_parse true; A_expand; A_scan; A_terms; A_conversions; A_tense;
         A_connectives; A_relative; A_bracketing; A_text true], 0%N) /\
  main ["-t"]%string (world0 false true) = Ok ([A_read None; A_preprocess; A_parse false], 2%N) /\
  main ["-tf"; "-m"]%string (world0 false false) = Ok ([A_read None; A_preprocess; A_parse false; A_expand; A_scan; A_tree; A_memory], 0%N) /\
  main ["none"]%string (world0 false true) = Ok ([A_no_file "none"], 1%N) /\
  unknown "-q"%string.
Proof.
  split.
  { repeat constructor; try discriminate; reflexivity. }
  repeat (split; [reflexivity|]). repeat split.
  - intros []; discriminate.
  - cbn. intuition discriminate.
Qed.

(* -w as the last word of the command line reads through a null pointer *)
Theorem C43_width_refuted : exists args w, main args w = UB UB_null.
Proof. exists ["-w"%string], (world0 false false). reflexivity. Qed.
Print Assumptions C43_width_refuted.
