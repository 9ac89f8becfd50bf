(* main.c: the options and the order of the stages.  What a stage does is a parameter;
   the result is the list of the actions and the exit status. *)
From Coq Require Import String Ascii List NArith ZArith Bool.
From Verif Require Import Base.
Import ListNotations.

Open Scope string_scope.

(* main.c:130-170 *)
Record options : Type := Options {
  debug : bool; token_lists : bool; show_tree : bool; full_tree : bool; gloss : bool; latex : bool;
  textout : bool; htmlout : bool; block : bool; show_memory : bool; width : Z; insert_elidables : bool;
  require_elidables : bool; show_elisions : bool; show_elisions_verbose : bool;
  cultural_rafsi : bool; backtrace : bool; dictionary_defects : bool; filename : option string }.
Definition options0 : options :=
  Options false false false false false false false false false false 79 false false false false false false false None.

(* the switches without an argument; main.c:174-214 *)
Definition on_d o := Options true (token_lists o) (show_tree o) (full_tree o) (gloss o) (latex o) (textout o) (htmlout o) (block o) (show_memory o) (width o) (insert_elidables o) (require_elidables o) (show_elisions o) (show_elisions_verbose o) (cultural_rafsi o) (backtrace o) (dictionary_defects o) (filename o).
Definition on_k o := Options (debug o) true (show_tree o) (full_tree o) (gloss o) (latex o) (textout o) (htmlout o) (block o) (show_memory o) (width o) (insert_elidables o) (require_elidables o) (show_elisions o) (show_elisions_verbose o) (cultural_rafsi o) (backtrace o) (dictionary_defects o) (filename o).
Definition on_g o := Options (debug o) (token_lists o) (show_tree o) (full_tree o) true (latex o) (textout o) (htmlout o) (block o) (show_memory o) (width o) (insert_elidables o) (require_elidables o) (show_elisions o) (show_elisions_verbose o) (cultural_rafsi o) (backtrace o) (dictionary_defects o) (filename o).
Definition on_t o := Options (debug o) (token_lists o) true (full_tree o) (gloss o) (latex o) (textout o) (htmlout o) (block o) (show_memory o) (width o) (insert_elidables o) (require_elidables o) (show_elisions o) (show_elisions_verbose o) (cultural_rafsi o) (backtrace o) (dictionary_defects o) (filename o).
Definition on_tf o := Options (debug o) (token_lists o) true true (gloss o) (latex o) (textout o) (htmlout o) (block o) (show_memory o) (width o) (insert_elidables o) (require_elidables o) (show_elisions o) (show_elisions_verbose o) (cultural_rafsi o) (backtrace o) (dictionary_defects o) (filename o).
Definition on_l o := Options (debug o) (token_lists o) (show_tree o) (full_tree o) (gloss o) true (textout o) (htmlout o) (block o) (show_memory o) (width o) (insert_elidables o) (require_elidables o) (show_elisions o) (show_elisions_verbose o) (cultural_rafsi o) (backtrace o) (dictionary_defects o) (filename o).
Definition on_x o := Options (debug o) (token_lists o) (show_tree o) (full_tree o) (gloss o) (latex o) true (htmlout o) (block o) (show_memory o) (width o) (insert_elidables o) (require_elidables o) (show_elisions o) (show_elisions_verbose o) (cultural_rafsi o) (backtrace o) (dictionary_defects o) (filename o).
Definition on_H o := Options (debug o) (token_lists o) (show_tree o) (full_tree o) (gloss o) (latex o) (textout o) true (block o) (show_memory o) (width o) (insert_elidables o) (require_elidables o) (show_elisions o) (show_elisions_verbose o) (cultural_rafsi o) (backtrace o) (dictionary_defects o) (filename o).
Definition on_b o := Options (debug o) (token_lists o) (show_tree o) (full_tree o) (gloss o) (latex o) (textout o) (htmlout o) true (show_memory o) (width o) (insert_elidables o) (require_elidables o) (show_elisions o) (show_elisions_verbose o) (cultural_rafsi o) (backtrace o) (dictionary_defects o) (filename o).
Definition on_m o := Options (debug o) (token_lists o) (show_tree o) (full_tree o) (gloss o) (latex o) (textout o) (htmlout o) (block o) true (width o) (insert_elidables o) (require_elidables o) (show_elisions o) (show_elisions_verbose o) (cultural_rafsi o) (backtrace o) (dictionary_defects o) (filename o).
Definition on_ie o := Options (debug o) (token_lists o) (show_tree o) (full_tree o) (gloss o) (latex o) (textout o) (htmlout o) (block o) (show_memory o) (width o) true (require_elidables o) (show_elisions o) (show_elisions_verbose o) (cultural_rafsi o) (backtrace o) (dictionary_defects o) (filename o).
Definition on_re o := Options (debug o) (token_lists o) (show_tree o) (full_tree o) (gloss o) (latex o) (textout o) (htmlout o) (block o) (show_memory o) (width o) (insert_elidables o) true (show_elisions o) (show_elisions_verbose o) (cultural_rafsi o) (backtrace o) (dictionary_defects o) (filename o).
Definition set_se b o := Options (debug o) (token_lists o) (show_tree o) (full_tree o) (gloss o) (latex o) (textout o) (htmlout o) (block o) (show_memory o) (width o) (insert_elidables o) (require_elidables o) b (show_elisions_verbose o) (cultural_rafsi o) (backtrace o) (dictionary_defects o) (filename o).
Definition on_sev o := Options (debug o) (token_lists o) (show_tree o) (full_tree o) (gloss o) (latex o) (textout o) (htmlout o) (block o) (show_memory o) (width o) (insert_elidables o) (require_elidables o) true true (cultural_rafsi o) (backtrace o) (dictionary_defects o) (filename o).
Definition on_cr o := Options (debug o) (token_lists o) (show_tree o) (full_tree o) (gloss o) (latex o) (textout o) (htmlout o) (block o) (show_memory o) (width o) (insert_elidables o) (require_elidables o) (show_elisions o) (show_elisions_verbose o) true (backtrace o) (dictionary_defects o) (filename o).
Definition on_bt o := Options (debug o) (token_lists o) (show_tree o) (full_tree o) (gloss o) (latex o) (textout o) (htmlout o) (block o) (show_memory o) (width o) (insert_elidables o) (require_elidables o) (show_elisions o) (show_elisions_verbose o) (cultural_rafsi o) true (dictionary_defects o) (filename o).
Definition on_dd o := Options (debug o) (token_lists o) (show_tree o) (full_tree o) (gloss o) (latex o) (textout o) (htmlout o) (block o) (show_memory o) (width o) (insert_elidables o) (require_elidables o) (show_elisions o) (show_elisions_verbose o) (cultural_rafsi o) (backtrace o) true (filename o).
Definition set_width z o := Options (debug o) (token_lists o) (show_tree o) (full_tree o) (gloss o) (latex o) (textout o) (htmlout o) (block o) (show_memory o) z (insert_elidables o) (require_elidables o) (show_elisions o) (show_elisions_verbose o) (cultural_rafsi o) (backtrace o) (dictionary_defects o) (filename o).
Definition set_file f o := Options (debug o) (token_lists o) (show_tree o) (full_tree o) (gloss o) (latex o) (textout o) (htmlout o) (block o) (show_memory o) (width o) (insert_elidables o) (require_elidables o) (show_elisions o) (show_elisions_verbose o) (cultural_rafsi o) (backtrace o) (dictionary_defects o) (Some f).

(* atoi of the C library: blanks, a sign, digits; out of range is undefined *)
Fixpoint atoi_digits (s : string) (acc : Z) : Z :=
  match s with
  | EmptyString => acc
  | String c s =>
      let n := Z.of_N (N_of_ascii c) in
      if (48 <=? n)%Z && (n <=? 57)%Z then atoi_digits s (acc * 10 + (n - 48))%Z else acc
  end.
Fixpoint atoi_blanks (s : string) : string :=
  match s with
  | String c t => let n := N_of_ascii c in if N.eqb n 32 || (N.leb 9 n && N.leb n 13) then atoi_blanks t else s
  | EmptyString => s
  end.
Definition atoi (s : string) : outcome Z :=
  let z := match atoi_blanks s with
           | String "-" t => (- atoi_digits t 0)%Z
           | String "+" t => atoi_digits t 0
           | t => atoi_digits t 0
           end in
  if (z <? -2147483648)%Z || (2147483647 <? z)%Z then UB UB_other else Ok z.

(* what the program does; A_read carries the file (None is stdin) and the elisions, width
   and other settings its stages look at are in the options *)
Inductive action : Type :=
| A_version | A_usage | A_bad_option (s : string) | A_incompatible | A_no_file (s : string)
| A_read (s : option string) | A_tokens_before | A_preprocess | A_tokens_after | A_parse (full : bool)
| A_expand | A_scan | A_compress | A_tree
| A_terms | A_conversions | A_tense | A_connectives | A_relative | A_bracketing
| A_latex (block : bool) | A_text (block : bool) | A_html | A_brackets (gloss : bool)
| A_memory.

(* how reading the options ends *)
Inductive parsed : Type := P_run (o : options) | P_stop (a : action) (status : N).

(* main.c:173-240 *)
Definition flag (a : string) : option (options -> options) :=
  if a =? "-d" then Some on_d else
  if a =? "-k" then Some on_k else
  if a =? "-g" then Some on_g else
  if a =? "-t" then Some on_t else
  if a =? "-tf" then Some on_tf else
  if a =? "-l" then Some on_l else
  if a =? "-x" then Some on_x else
  if a =? "-H" then Some on_H else
  if a =? "-b" then Some on_b else
  if a =? "-m" then Some on_m else
  if a =? "-ie" then Some on_ie else
  if a =? "-re" then Some on_re else
  if a =? "-se" then Some (set_se true) else
  if a =? "-sev" then Some on_sev else
  if a =? "-cr" then Some on_cr else
  if a =? "-bt" then Some on_bt else
  if a =? "-dd" then Some on_dd else None.
(* main.c:173-240; the tests for -v and the flags are for different strings, so their
   order does not matter *)
Fixpoint read_args (args : list string) (o : options) : outcome parsed :=
  match args with
  | [] => Ok (P_run o)
  | a :: rest =>
      match flag a with
      | Some f => read_args rest (f o)
      | None =>
          if a =? "-v" then Ok (P_stop A_version 0)
          else if prefix "-w" a then
            match a with
            | String _ (String _ ((String _ _) as num)) => do z <- atoi num; read_args rest (set_width z o)
            | _ =>
                match rest with
                | [] => UB UB_null
                | num :: rest => do z <- atoi num; read_args rest (set_width z o)
                end
            end
          else if (a =? "--help") || (a =? "-h") || (a =? "-?") then Ok (P_stop A_usage 0)
          else if prefix "-" a then Ok (P_stop (A_bad_option a) 1)
          else read_args rest (set_file a o)
      end
  end.

(* what the stages come to: can a file be opened; are there bad words after reading and
   after preprocessing; does the parser fail, and did it meet a syntax error; does a
   stage crash *)
Record world : Type := World {
  opens : string -> bool; bad_reading : bool; bad_preprocess : bool;
  parse_fails : bool -> bool; syntax_error : bool -> bool; crashes : action -> bool }.

(* one action after another; a crash is caught by handle_signal, main.c:73-80, and ends
   with status 1 *)
Definition step (w : world) (a : action) (k : list action * N) : list action * N :=
  if crashes w a then ([a], 1%N) else (a :: fst k, snd k).
Fixpoint steps (w : world) (l : list action) (k : list action * N) : list action * N :=
  match l with [] => k | a :: l => step w a (steps w l k) end.
Definition when (b : bool) (l : list action) : list action := if b then l else [].

(* main.c:304-343 *)
Definition produce (o : options) : list action :=
  [A_expand; A_scan] ++
  (if show_tree o then when (negb (full_tree o)) [A_compress] ++ [A_tree]
   else if latex o || textout o || htmlout o then
     [A_terms; A_conversions; A_tense; A_connectives; A_relative; A_bracketing] ++
     (if latex o then [A_latex (block o)] else if textout o then [A_text (block o)] else if htmlout o then [A_html] else [])
   else [A_compress; A_brackets (gloss o)]).
(* main.c:242-353 *)
Definition run (o : options) (w : world) : list action * N :=
  let se := require_elidables o && show_elisions o in
  let o := if se then set_se false o else o in
  let body :=
    steps w [A_read (filename o)]
      (if bad_reading w then ([], 3%N)
       else steps w (when (token_lists o) [A_tokens_before] ++ [A_preprocess])
         (if bad_preprocess w then ([], 3%N)
          else
            let full := require_elidables o in
            steps w (when (token_lists o) [A_tokens_after] ++ [A_parse full])
              (let result := parse_fails w full in
               let err := syntax_error w full in
               steps w (when (negb result && negb err) (produce o) ++ when (show_memory o) [A_memory])
                 ([], if result then 1%N else if err then 2%N else 0%N)))) in
  let rest := match filename o with
              | Some f => if opens w f then body else ([A_no_file f], 1%N)
              | None => body
              end in
  steps w (when se [A_incompatible]) rest.

(* main.c:126-353 main; [args] without the name of the program *)
Definition main (args : list string) (w : world) : outcome (list action * N) :=
  do p <- read_args args options0;
  match p with
  | P_stop a n => Ok ([a], n)
  | P_run o => Ok (run o w)
  end.
