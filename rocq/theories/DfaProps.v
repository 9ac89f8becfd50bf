(* Property theorems C27-C29: the automaton generator. *)
From Coq Require Import String List NArith Bool.
From Verif Require Import Base Arr DfaModel NfaData DfaSpec DfaTabProofs DfaMinProofs DfaBuildProofs
  DfaReadProofs DfaTables DfaTablesProofs.
Import ListNotations.
Open Scope N_scope.

(* ---- example material ---- *)
(* tokens a b c; (a|b)* a , and the same followed by c with attribute "end";
   a result "long" that ends the scan *)
Definition demo : list decl :=
  [DTokens ["a"; "b"; "c"];
   DAbbrev "ab" ["a"; "b"];
   DBlock "tail" [] [StateDecl "in" None [([Options [Some "c"; None]], Goto ["out"])]];
   DBlock "main" []
     [StateDecl "in" None
        [([Options [Some "ab"]], Goto ["in"]);
         ([Options [Some "a"]; Inline [Some ("tail", "in", "out"); None]], ExitTag "hit");
         ([Options [Some "c"]; Options [Some "c"]], Goto ["end"])];
      StateDecl "end" (Some "AT") [([Options [Some "c"]], Goto ["end"]); ([Options [None]], ExitTag "stop")];
      StateDecl "in" None []];
   DExit (DSymbol "any" (E_OR (E_SYMBOL "hit") (E_SYMBOL "stop")));
   DExit (DResult "HIT" (Some (E_AND (E_SYMBOL "any") (E_NOT (E_SYMBOL "stop")))) false);
   DExit (DResult "STOP" (Some (E_SYMBOL "stop")) true);
   DExit (DDefault "NONE");
   DAttr (DResult "AT" None false); DAttr (DDefault "NOAT")]%string.

Definition answer_of (tb : tables) (w : list N) : outcome (option (string * string)) :=
  do s <- run_tables tb (Some 0) w;
  match s with
  | None => Ok None
  | Some i => match nth_error (t_exit tb) (N.to_nat i), nth_error (t_attr tb) (N.to_nat i) with
              | Some r, Some a => Ok (Some (r, a))
              | _, _ => UB UB_bounds
              end
  end.

(* ---- C27 ---- *)
(* Whatever description is accepted, reading it gives a machine [src]; the
   emitted tables and lookup routine follow it on every token string, as long as
   the table contents fit the C types of the emitted arrays. *)
Theorem C27_generator_correct : forall ds tb, dfasyn ds = Ok tb ->
  exists src, read_description ds = Ok src /\
  (s_ntok src <= 256 -> N.of_nat (List.length (t_exit tb)) <= 32768 ->
   N.of_nat (List.length (t_exit tb)) * s_ntok src <= 65535 ->
   forall w, exists o, run_tables tb (Some 0) w = Ok o /\ answers src tb w o).
Proof. exact dfasyn_ok. Qed.
Print Assumptions C27_generator_correct.

(* the unminimised automaton, with its attributes, without size limits *)
Theorem C27_determinised : forall src d,
  wf_nfa (s_ntok src) (s_nfa src) -> s_start src < N.of_nat (List.length (s_nfa src)) ->
  raw_dfa src = Ok d ->
  d <> [] /\ Forall (fun x => List.length (d_map x) = N.to_nat (s_ntok src)) d /\
  closed_table (map d_map d) /\
  forall w,
    match walk (map d_map d) (Some 0) w with
    | None => ~ alive src w
    | Some i => alive src w /\
        exists x re ra, nth_error d (N.to_nat i) = Some x /\
          exit_rule src w re /\ attr_rule src w ra /\
          d_result x = option_map r_result re /\ d_attr x = option_map r_result ra
    end.
Proof. exact raw_dfa_ok. Qed.
Print Assumptions C27_determinised.

(* every machine read from a description meets the hypotheses of the last theorem *)
Theorem C27_read_wf : forall ds src, read_description ds = Ok src ->
  wf_nfa (s_ntok src) (s_nfa src) /\ s_start src < N.of_nat (List.length (s_nfa src)).
Proof. exact read_description_wf. Qed.
Print Assumptions C27_read_wf.

(* the description determines the answer: at most one rule applies to a string *)
Theorem C27_rule_unique : forall x T r, selects x T r -> forall r', selects x T r' -> r = r'.
Proof. exact selects_fun. Qed.
Print Assumptions C27_rule_unique.

(* the three descriptions shipped with the program *)
Theorem C27_shipped : Forall (fun p => exists src, read_description (fst p) = Ok src /\
    forall w, exists o, run_tables (snd p) (Some 0) w = Ok o /\ answers src (snd p) w o)
  [(stag_desc, stag_tables); (bad_cmene_desc, bc_tables); (morf_desc, morf_tables)].
Proof. exact shipped. Qed.
Print Assumptions C27_shipped.

Example C27_ex : exists tb, dfasyn demo = Ok tb /\
  map (answer_of tb) [[]; [0]; [1;0]; [1]; [0;2]; [2]; [2;2]; [2;2;2]; [0;2;2]] =
  map (@Ok _)
   [Some ("NONE", "NOAT"); Some ("HIT", "NOAT"); Some ("HIT", "NOAT"); Some ("NONE", "NOAT");
    Some ("HIT", "NOAT"); Some ("NONE", "NOAT"); Some ("STOP", "AT"); None; Some ("STOP", "AT")]%string.
Proof.
  destruct (dfasyn demo) as [tb| | | |] eqn:E; vm_compute in E; try discriminate.
  injection E as <-. eexists. split; [reflexivity|]. vm_compute. reflexivity.
Qed.

(* ---- C28 ---- *)
(* Merging succeeds on every table, keeps the answers of every string, and
   leaves no two states that could still be merged. *)
Theorem C28_merge_correct : forall dfas nt, dfas <> [] ->
  Forall (fun d => List.length (d_map d) = nt) dfas -> closed_table (map d_map dfas) ->
  exists out, compress_dfa dfas = Ok out /\ out <> [] /\
    (List.length out <= List.length dfas)%nat /\
    Forall (fun d => List.length (d_map d) = nt) out /\ closed_table (map d_map out) /\
    (forall w, after out 0 w = after dfas 0 w) /\
    (forall i j, i < N.of_nat (List.length out) -> j < N.of_nat (List.length out) ->
       same_behaviour out i j -> i = j).
Proof. exact compress_dfa_ok. Qed.
Print Assumptions C28_merge_correct.

(* attributes survive when only states with a result carry one *)
Theorem C28_attributes_kept : forall dfas nt out w,
  dfas <> [] -> Forall (fun d => List.length (d_map d) = nt) dfas -> closed_table (map d_map dfas) ->
  Forall (fun d => d_result d = None -> d_attr d = None) dfas ->
  compress_dfa dfas = Ok out -> attribute_after out w = attribute_after dfas w.
Proof. exact attributes_kept. Qed.
Print Assumptions C28_attributes_kept.

(* the attribute of a string without a result can change *)
Definition attr_demo : list dnode :=
  [DNode None false None [Some 1; Some 2]; DNode None false (Some "X"%string) [None; None];
   DNode None false (Some "Y"%string) [None; None]].
Theorem C28_attribute_lost_refuted : exists dfas out w,
  dfas <> [] /\ Forall (fun d => List.length (d_map d) = 2%nat) dfas /\ closed_table (map d_map dfas) /\
  compress_dfa dfas = Ok out /\ attribute_after out w <> attribute_after dfas w.
Proof.
  exists attr_demo. destruct (compress_dfa attr_demo) as [out| | | |] eqn:E; vm_compute in E; try discriminate.
  injection E as <-. eexists. exists [1]. split; [discriminate|]. split; [repeat constructor|].
  split; [repeat constructor|]. split; [reflexivity|]. vm_compute. discriminate.
Qed.
Print Assumptions C28_attribute_lost_refuted.

Definition merge_demo : list dnode :=
  [DNode None false None [Some 1; Some 2]; DNode (Some "R"%string) false None [Some 3; None];
   DNode (Some "R"%string) false None [Some 4; None]; DNode None false None [Some 1; None];
   DNode None false None [Some 2; None]].
Example C28_ex_attr : Forall (fun d => d_result d = None -> d_attr d = None) merge_demo.
Proof. repeat constructor; discriminate. Qed.
Example C28_ex : merge_demo <> [] /\ Forall (fun d => List.length (d_map d) = 2%nat) merge_demo /\
  closed_table (map d_map merge_demo) /\
  exists out, compress_dfa merge_demo = Ok out /\ List.length out = 3%nat.
Proof.
  split; [discriminate|]. split; [repeat constructor|]. split; [repeat constructor|].
  eexists. split; vm_compute; reflexivity.
Qed.

(* ---- C29 ---- *)
Theorem C29_lookup_correct : forall src dfas,
  Forall (fun d => List.length (d_map d) = N.to_nat (s_ntok src)) dfas ->
  closed_table (map d_map dfas) ->
  s_ntok src <= 256 -> N.of_nat (List.length dfas) <= 32768 ->
  N.of_nat (List.length dfas) * s_ntok src <= 65535 ->
  forall s t, s < N.of_nat (List.length dfas) ->
    next_state (print_tables src dfas) (Some s) t = Ok (entry (map d_map dfas) s t).
Proof. exact next_state_entry. Qed.
Print Assumptions C29_lookup_correct.

(* beyond the size of the emitted array types the lookup is wrong *)
Definition wide_src : source :=
  Source 258 [] 0 create_evaluator create_evaluator.
Definition wide : list dnode :=
  [DNode None false None (map (fun t => if N.eqb t 257 then Some 1 else None) (upto 258));
   DNode (Some "R"%string) false None (map (fun _ => None) (upto 258))].
Theorem C29_too_many_tokens_refuted : exists src dfas s t,
  Forall (fun d => List.length (d_map d) = N.to_nat (s_ntok src)) dfas /\
  closed_table (map d_map dfas) /\ s < N.of_nat (List.length dfas) /\ t < s_ntok src /\
  next_state (print_tables src dfas) (Some s) t <> Ok (entry (map d_map dfas) s t).
Proof.
  exists wide_src, wide, 0, 257. repeat split.
  - repeat constructor.
  - apply Forall_forall. intros r Hr. apply Forall_forall. intros d Hd.
    destruct Hr as [<-|[<-|[]]]; cbn [d_map] in Hd; apply in_map_iff in Hd; destruct Hd as (t & <- & _);
      [destruct (t =? 257)|]; exact I || reflexivity.
  - vm_compute. discriminate.
Qed.
Print Assumptions C29_too_many_tokens_refuted.

Example C29_ex : (* a row stored as exceptions to another row *)
  let src := Source 3 [] 0 create_evaluator create_evaluator in
  let d := [DNode None false None [Some 1; Some 2; Some 0]; DNode None false None [Some 1; Some 2; None];
            DNode None false None [Some 1; Some 1; Some 0]] in
  Forall (fun d => List.length (d_map d) = N.to_nat (s_ntok src)) d /\ closed_table (map d_map d) /\
  map (fun t => next_state (print_tables src d) (Some 1) t) [0; 1; 2; 3] =
  [Ok (Some 1); Ok (Some 2); Ok None; Ok None].
Proof. split; [repeat constructor|]. split; [repeat constructor|]. vm_compute. reflexivity. Qed.
