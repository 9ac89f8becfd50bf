(* C20, C21, C22, C50: the dictionary. *)
From Coq Require Import String Ascii List NArith ZArith Bool Arith Sorted Permutation.
From Verif Require Import Base DictModel DictSpec DictProofs DictProofs2 DictProofs3.
Import ListNotations.
Open Scope string_scope.
Open Scope list_scope.

(* ---- C20 ---- *)
(* the compiled dictionary knows exactly what the last transaction about each key
   says, with its keys in strictly increasing order (so each once) *)
Theorem C20_last_wins : forall l, exists d, compile l = Ok d /\
  StronglySorted (fun a b => before (fst a) (fst b)) d /\ forall k, assoc d k = meaning l k.
Proof. exact compile_spec. Qed.
Print Assumptions C20_last_wins.
(* whatever the sorting routine of the library does *)
Theorem C20_any_sort : forall l m, NoDup (map ord l) -> Permutation l m ->
  StronglySorted (fun a b => sort_comparison a b <> Gt) m -> m = sort_array l.
Proof. exact sort_any. Qed.
Print Assumptions C20_any_sort.
Theorem C20_numbers_distinct : forall l, NoDup (map ord (build_array (add_all l))).
Proof. intro l. rewrite array_number. apply number_distinct. Qed.
Print Assumptions C20_numbers_distinct.
Example C20_ex :
  compile [Define "b" "1"; Define "a" "2"; Erase "b"; Define "c" "3"; Define "b" "4"; Define "a" "5"; Erase "c"; Define "b" "6"]
  = Ok [("a", "5"); ("b", "6")].
Proof. vm_compute. reflexivity. Qed.

(* ---- C21 ---- *)
(* the compiler reads back what it wrote *)
Theorem C21_reread : forall d, storable_dict d ->
  exists f, write_database d = Ok f /\ read_database f = Ok (map (fun e => Define (fst e) (snd e)) d).
Proof. intros d S. exists (write_bytes d). split; [apply write_ok, S | apply reread, S]. Qed.
Print Assumptions C21_reread.
(* and the parser sees the same entries in the same order *)
Theorem C21_loaded : forall d, storable_dict d ->
  exists f, write_database d = Ok f /\
    Forall2 (fun e o => at_offset (load f) (fst o) = Ok (fst e) /\ at_offset (load f) (snd o) = Ok (snd e)) d (entries (load f)).
Proof. intros d S. exists (write_bytes d). split; [apply write_ok, S | exact (loaded d S)]. Qed.
Print Assumptions C21_loaded.
(* a string of 256 bytes or more: write outside the table of lengths *)
Theorem C21_too_long : forall d,
  ~ Forall (fun e => (strlen (fst e) < 256)%N /\ (strlen (snd e) < 256)%N) d -> write_database d = UB UB_bounds.
Proof. exact write_ub. Qed.
Print Assumptions C21_too_long.
(* and even when that does no harm the file does not give the dictionary back *)
Definition long_string : string := str (repeat "a"%char 256).
Theorem C21_long_refuted : exists d, Forall (fun e => no_nul (fst e) /\ no_nul (snd e)) d /\
  read_database (write_bytes d) <> Ok (map (fun e => Define (fst e) (snd e)) d).
Proof.
  exists [("k", long_string)]. split.
  - constructor; [| constructor]. cbn [fst snd]. unfold no_nul. split; [intros [H|[]]; discriminate H |].
    intro H. assert (E : forallb (fun a => negb (Ascii.eqb a nul)) (chars long_string) = true) by (vm_compute; reflexivity).
    rewrite forallb_forall in E. specialize (E _ H). discriminate E.
  - vm_compute. discriminate.
Qed.
Print Assumptions C21_long_refuted.
Example C21_ex_hyp : storable_dict [("a", "x y"); ("bajra1", ""); ("bajra1n", "runner")].
Proof.
  split; [| discriminate]. repeat constructor; cbn [fst snd]; unfold no_nul; cbn; intuition discriminate.
Qed.
Example C21_ex : write_database [("a", "xy")] =
  Ok (map ascii_of_N [0; 0; 0; 1; 1; 2; 97; 0; 120; 121; 0]%N).
Proof. vm_compute. reflexivity. Qed.

(* ---- C22 ---- *)
(* lookup in a written dictionary gives exactly the entry *)
Theorem C22_lookup : forall d k, storable_dict d -> StronglySorted (fun a b => before (fst a) (fst b)) d ->
  exists f, write_database d = Ok f /\ dict_lookup (load f) k = Ok (assoc d k).
Proof. intros d k S T. exists (write_bytes d). split; [apply write_ok, S | apply lookup_ok; assumption]. Qed.
Print Assumptions C22_lookup.
Example C22_ex_hyp : StronglySorted (fun a b : string * string => before (fst a) (fst b))
  [("a", "x y"); ("bajra1", ""); ("bajra1n", "runner")].
Proof. repeat (apply SSorted_cons || apply Forall_cons || apply SSorted_nil || apply Forall_nil || (apply strcmp_before; reflexivity)). Qed.
Example C22_ex :
  let f := write_bytes [("a", "x y"); ("bajra1", ""); ("bajra1n", "runner")] in
  map (dict_lookup (load f)) ["a"; "bajra1"; "bajra1n"; "bajra"; ""; "z"] =
  [Ok (Some "x y"); Ok (Some ""); Ok (Some "runner"); Ok None; Ok None; Ok None].
Proof. vm_compute. reflexivity. Qed.

(* ---- C50 ---- *)
(* from source files, and an old dictionary, to lookups: every query is answered
   by what the lines say one after the other *)
Theorem C50_sources : forall canon old d0 fs mss d' f,
  match old with
  | None => d0 = []
  | Some f => storable_dict d0 /\ StronglySorted (fun a b => before (fst a) (fst b)) d0 /\ f = write_bytes d0
  end ->
  Forall (Forall short_line) fs -> Forall2 (Forall2 says) fs mss ->
  (forall k v, In (Some (k, v)) (concat mss) -> k <> "") ->
  learns_all canon (concat mss) (assoc d0) d' ->
  (forall k v, d' k = Some v -> no_nul k /\ no_nul v) ->
  smujajgau canon old (map (fun ls => Some (text ls)) fs) = Ok f -> (N.of_nat (List.length f) <= 2 ^ 32)%N ->
  forall k, dict_lookup (load f) k = Ok (d' k).
Proof. exact program_lookup. Qed.
Print Assumptions C50_sources.
(* the compiler does not stop otherwise: it writes a sorted dictionary of this
   content (which may fail only by C21_too_long) *)
Theorem C50_compiles : forall canon old d0 fs mss d',
  match old with
  | None => d0 = []
  | Some f => storable_dict d0 /\ StronglySorted (fun a b => before (fst a) (fst b)) d0 /\ f = write_bytes d0
  end ->
  Forall (Forall short_line) fs -> Forall2 (Forall2 says) fs mss ->
  (forall k v, In (Some (k, v)) (concat mss) -> k <> "") ->
  learns_all canon (concat mss) (assoc d0) d' ->
  exists d, smujajgau canon old (map (fun ls => Some (text ls)) fs) = write_database d /\
    StronglySorted (fun a b => before (fst a) (fst b)) d /\ forall k, assoc d k = d' k.
Proof. exact program. Qed.
Print Assumptions C50_compiles.
(* every line says something and every entry with a key teaches something *)
Theorem C50_says_total : forall l, exists m, says l m.
Proof. exact says_total. Qed.
Print Assumptions C50_says_total.
Theorem C50_learns_total : forall canon k v d, k <> "" -> exists d', learns canon k v d d'.
Proof. exact learns_total. Qed.
Print Assumptions C50_learns_total.

Definition ex_canon (s : string) : option string := if String.eqb s "soirsai" then Some "sonci+sanmi" else None.
Definition ex_source : list (list ascii) :=
  map chars ["klama1:come:a comment"; "# nothing"; "klama1n:comer"; ""; "klama1:go"; "  soirsai1:rations"; "mi:me"; "mi:I"].
Example C50_ex :
  match smujajgau ex_canon None [Some (text ex_source)] with
  | Ok f => map (dict_lookup (load f)) ["klama1"; "klama1n"; "sonci+sanmi1"; "mi"; "soirsai1"]
  | _ => []
  end = [Ok (Some "go"); Ok None; Ok (Some "@soirsai1"); Ok (Some "I"); Ok (Some "rations")].
Proof. vm_compute. reflexivity. Qed.
Example C50_ex_hyp : Forall short_line ex_source /\ says (chars "klama1:come:a comment") (Some ("klama1", "come")) /\
  says (chars "  soirsai1:rations") (Some ("soirsai1", "rations")) /\
  learns ex_canon "soirsai1" "rations" nothing
    (put "sonci+sanmi1" (Some "@soirsai1") (forget_forms "sonci+sanmi1" (put "soirsai1" (Some "rations") (forget_forms "soirsai1" nothing)))).
Proof.
  split; [| split; [| split]].
  - unfold ex_source. cbn [map chars list_ascii_of_string].
    repeat (apply Forall_cons; [split; [cbn; intuition discriminate | vm_compute; reflexivity] |]). apply Forall_nil.
  - apply (says_entry [] (chars "klama1") (chars "come") (chars ":a comment")); try (cbn; intuition discriminate); try (apply Forall_nil).
    + intros a k' E. injection E as <- _. split; [reflexivity |]. intros [H|[H|H]]; discriminate H.
    + right. eexists. reflexivity.
  - apply (says_entry (chars "  ") (chars "soirsai1") (chars "rations") []); try (cbn; intuition discriminate); try (apply Forall_nil).
    + repeat constructor.
    + intros a k' E. injection E as <- _. split; [reflexivity |]. intros [H|[H|H]]; discriminate H.
  - apply (learn_compound ex_canon "soirsai1" "rations" nothing "soirsai" "sonci+sanmi" "soirsai" "1"); try reflexivity.
    + exists "1". split; [reflexivity |]. split; [repeat constructor | reflexivity].
    + vm_compute. repeat constructor.
Qed.
(* a last line without newline loses its last character *)
Theorem C50_no_newline_refuted : exists l m f, says l m /\ smujajgau ex_canon None [Some l] = Ok f /\
  m = Some ("mi", "I am") /\ dict_lookup (load f) "mi" = Ok (Some "I a").
Proof.
  exists (chars "mi:I am"), (Some ("mi", "I am")). eexists. split; [| split; [vm_compute; reflexivity | split; [reflexivity | vm_compute; reflexivity]]].
  apply (says_entry [] (chars "mi") (chars "I am") []); try (cbn; intuition discriminate); try (apply Forall_nil).
  intros a k' E. injection E as <- _. split; [reflexivity |]. intros [H|[H|H]]; discriminate H.
Qed.
Print Assumptions C50_no_newline_refuted.
(* an entry without a key reads in front of the buffer *)
Theorem C50_no_key_refuted : exists l m, says l m /\ smujajgau ex_canon None [Some (text [l])] = UB UB_bounds.
Proof.
  exists (chars ":x"), (Some ("", "x")). split; [| vm_compute; reflexivity].
  apply (says_entry [] [] (chars "x") []); try (cbn; intuition discriminate); try (apply Forall_nil).
Qed.
Print Assumptions C50_no_key_refuted.
