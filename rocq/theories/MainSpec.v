(* What the options mean and what must happen before what. *)
From Coq Require Import String Ascii List NArith ZArith Bool.
From Verif Require Import Base MainModel.
Import ListNotations.

Open Scope string_scope.

Inductive fname : Type :=
| F_d | F_k | F_g | F_t | F_tf | F_l | F_x | F_H | F_b | F_m | F_ie | F_re | F_se | F_sev | F_cr | F_bt | F_dd.
Definition spelt (f : fname) : string :=
  match f with
  | F_d => "-d" | F_k => "-k" | F_g => "-g" | F_t => "-t" | F_tf => "-tf" | F_l => "-l" | F_x => "-x" | F_H => "-H"
  | F_b => "-b" | F_m => "-m" | F_ie => "-ie" | F_re => "-re" | F_se => "-se" | F_sev => "-sev" | F_cr => "-cr"
  | F_bt => "-bt" | F_dd => "-dd"
  end.
Definition all_flags : list fname :=
  [F_d; F_k; F_g; F_t; F_tf; F_l; F_x; F_H; F_b; F_m; F_ie; F_re; F_se; F_sev; F_cr; F_bt; F_dd].
Inductive item : Type := Flag (f : fname) | Width (joined : bool) (digits : list nat) | File (s : string).

Definition digit (d : nat) : ascii := ascii_of_nat (48 + d).
Fixpoint text (l : list ascii) : string := match l with [] => "" | c :: l => String c (text l) end.
Definition numeral (ds : list nat) : string := text (map digit ds).
(* the value of a decimal numeral *)
Definition amount (ds : list nat) : Z := fold_left (fun z d => (10 * z + Z.of_nat d)%Z) ds 0%Z.

Definition written (i : item) : list string :=
  match i with
  | Flag f => [spelt f]
  | Width true ds => ["-w" ++ numeral ds]
  | Width false ds => ["-w"; numeral ds]
  | File s => [s]
  end.
Definition proper (i : item) : Prop :=
  match i with
  | Flag _ => True
  | Width _ ds => ds <> [] /\ Forall (fun d => d < 10)%nat ds /\ (amount ds < 2147483648)%Z
  | File s => prefix "-" s = false
  end.
Definition command (l : list item) : list string := flat_map written l.

Definition given (f : fname) (l : list item) : Prop := In (Flag f) l.
Definition is (b : bool) (P : Prop) : Prop := b = true <-> P.
Fixpoint last_width (l : list item) (z : Z) : Z :=
  match l with [] => z | Width _ ds :: l => last_width l (amount ds) | _ :: l => last_width l z end.
Fixpoint last_file (l : list item) (f : option string) : option string :=
  match l with [] => f | File s :: l => last_file l (Some s) | _ :: l => last_file l f end.

(* every option is on just when it has been given *)
Definition asked (o : options) (l : list item) : Prop :=
  is (debug o) (given F_d l) /\ is (token_lists o) (given F_k l) /\ is (gloss o) (given F_g l) /\
  is (show_tree o) (given F_t l \/ given F_tf l) /\ is (full_tree o) (given F_tf l) /\
  is (latex o) (given F_l l) /\ is (textout o) (given F_x l) /\ is (htmlout o) (given F_H l) /\ is (block o) (given F_b l) /\
  is (show_memory o) (given F_m l) /\ is (insert_elidables o) (given F_ie l) /\ is (require_elidables o) (given F_re l) /\
  is (show_elisions o) (given F_se l \/ given F_sev l) /\ is (show_elisions_verbose o) (given F_sev l) /\
  is (cultural_rafsi o) (given F_cr l) /\ is (backtrace o) (given F_bt l) /\ is (dictionary_defects o) (given F_dd l) /\
  width o = last_width l 79 /\ filename o = last_file l None.

(* an argument that is no option *)
Definition unknown (s : string) : Prop :=
  prefix "-" s = true /\ prefix "-w" s = false /\ (forall f, s <> spelt f) /\
  ~ In s ["-v"; "--help"; "-h"; "-?"].

(* the actions that print a translation of the text *)
Definition prints (a : action) : bool :=
  match a with A_tree | A_latex _ | A_text _ | A_html | A_brackets _ => true | _ => false end.
(* the one that is chosen *)
Inductive chosen (o : options) : action -> Prop :=
| c_tree : show_tree o = true -> chosen o A_tree
| c_latex : show_tree o = false -> latex o = true -> chosen o (A_latex (block o))
| c_text : show_tree o = false -> latex o = false -> textout o = true -> chosen o (A_text (block o))
| c_html : show_tree o = false -> latex o = false -> textout o = false -> htmlout o = true -> chosen o A_html
| c_plain : show_tree o = false -> latex o = false -> textout o = false -> htmlout o = false -> chosen o (A_brackets (gloss o)).

(* [needs a b]: a may only come after b *)
Definition interlinear (a : action) : bool := match a with A_latex _ | A_text _ | A_html => true | _ => false end.
Inductive needs : action -> action -> Prop :=
| n_pre s : needs A_preprocess (A_read s)
| n_parse f : needs (A_parse f) A_preprocess
| n_expand f : needs A_expand (A_parse f)
| n_scan : needs A_scan A_expand
| n_compress : needs A_compress A_scan
| n_terms : needs A_terms A_scan
| n_conversions : needs A_conversions A_terms
| n_print a : prints a = true -> needs a A_scan
| n_brackets g : needs (A_brackets g) A_compress
| n_inter a b : interlinear a = true -> In b [A_terms; A_conversions; A_tense; A_connectives; A_relative; A_bracketing] -> needs a b
| n_bracketing b : In b [A_terms; A_conversions; A_tense; A_connectives; A_relative] -> needs A_bracketing b.
Definition same_kind (a b : action) : Prop :=
  match a, b with A_read _, A_read _ => True | A_parse _, A_parse _ => True | _, _ => a = b end.
Definition in_order (l : list action) : Prop :=
  forall l1 a l2 b, l = (l1 ++ a :: l2)%list -> needs a b -> exists c, In c l1 /\ same_kind b c.

(* the stages of this run that cannot be skipped went well *)
Definition opened (o : options) (w : world) : Prop := forall f, filename o = Some f -> opens w f = true.
Definition calm (w : world) (l : list action) : Prop := forall a, In a l -> crashes w a = false.
Definition bad_words (w : world) : Prop := bad_reading w = true \/ bad_preprocess w = true.
