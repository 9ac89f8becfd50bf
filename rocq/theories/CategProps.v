(* Property theorems C11-C13: the look-ahead markers. *)
From Coq Require Import String List NArith Bool Arith.
From Verif Require Import Base DfaModel NfaData DfaSpec TokData CmavoData TokModel ErasureProps.
From Verif Require Import CategModel CategSpec CategProofs CategProofs5 CategProofs6.
Import ListNotations.
Open Scope string_scope.
Open Scope list_scope.

(* the grammar of tenses: what stag_nfa.in describes.  It is read without error. *)
Theorem C12_description_read : exists src, read_description stag_desc = Ok src.
Proof. exact stag_described. Qed.
Print Assumptions C12_description_read.

(* .i pu zu ki mi na se ja nai do gi'e klama mu roi *)
Definition sample : list node :=
  [cm "i"; cm "pu"; cm "zu"; cm "mi"; cm "na"; cm "se"; cm "ja"; cm "nai"; cm "do"; cm "na"; cm "gi'e";
   bv "klama"; cm "mu"; cm "roi"; cm "li"; cm "ci"; cm "mai"; cm "coi"; cm "do"].
Definition items_after (l : list node) : option (list item) :=
  match categorize_tokens l with Ok out => Some (map item_of out) | _ => None end.
Definition notes_after (l : list node) : option (list bool) :=
  match categorize_tokens l with
  | Ok out => Some (map (fun x => match dat x with N_CMAVO _ _ f => f | _ => false end) out)
  | _ => None end.

Example sample_wordy : forallb wordy sample = true.
Proof. vm_compute. reflexivity. Qed.
Example sample_marked : items_after sample = Some
  [W T_I; M T_PRIVATE_START_TENSE; W T_PU; W T_ZI; M T_PRIVATE_END_TENSE; W T_KOhA;
   M T_PRIVATE_START_JEK; W T_NA; W T_SE; W T_JA; W T_NAI; M T_PRIVATE_END_JEK; W T_KOhA;
   M T_PRIVATE_START_GIHEK; W T_NA; W T_GIhA; X;
   M T_PRIVATE_START_TENSE; M T_PRIVATE_NUMBER_ROI; W T_PA; W T_ROI; M T_PRIVATE_END_TENSE;
   W T_LI; M T_PRIVATE_NUMBER_MAI; W T_PA; W T_MAI; W T_COI; W T_KOhA].
Proof. vm_compute. reflexivity. Qed.
Example sample_noted : option_map (filter id) (notes_after sample) = Some [true].
Proof. vm_compute. reflexivity. Qed.

(* ---- C11 ---- *)
(* taking the markers out of the result gives back the words, whatever the text *)
Theorem C11_words_kept : forall l out,
  forallb wordy l = true -> categorize_tokens l = Ok out -> words out = words l.
Proof. exact categorize_words. Qed.
Print Assumptions C11_words_kept.

(* the note on each cmavo says whether a word that begins a free modifier is next *)
Theorem C11_free_noted : forall l out,
  forallb wordy l = true -> categorize_tokens l = Ok out -> free_noted out.
Proof. exact categorize_free. Qed.
Print Assumptions C11_free_noted.

(* an ordinal such as ci mai is a free modifier too, and its marker is listed in
   the test, but as a kind of cmavo: it never matches.  A cmavo before an ordinal
   is not noted. *)
Theorem C11_ordinal_noted_refuted : exists l out x y z,
  forallb wordy l = true /\ categorize_tokens l = Ok out /\
  out = [x; y] ++ z /\ item_of y = M T_PRIVATE_NUMBER_MAI /\
  exists s c, dat x = N_CMAVO s c false.
Proof. exact ordinal_not_noted. Qed.
Print Assumptions C11_ordinal_noted_refuted.

(* ---- C12 ---- *)
(* the exact crash condition, for every text *)
Theorem C12_crash_iff : forall src l, read_description stag_desc = Ok src -> forallb wordy l = true ->
  (tense_cut_short src l -> categorize_tokens l = UB UB_null) /\
  (~ tense_cut_short src l -> exists out, categorize_tokens l = Ok out).
Proof. exact categorize_crash. Qed.
Print Assumptions C12_crash_iff.

(* where it does not crash, exactly the leftmost longest tenses are marked *)
Theorem C12_longest_tenses : forall src l out, read_description stag_desc = Ok src ->
  forallb wordy l = true -> categorize_tokens l = Ok out ->
  exists mid, tense_marked src l mid /\ marked_with not_tense (map plain mid) (map plain out).
Proof. exact categorize_tense. Qed.
Print Assumptions C12_longest_tenses.

(* the claim a user would make - every text is processed - is false *)
Theorem C12_never_crashes_refuted : exists l, forallb wordy l = true /\ categorize_tokens l = UB UB_null.
Proof. exact number_at_end_crashes. Qed.
Print Assumptions C12_never_crashes_refuted.

Example crash_li_pa : categorize_tokens [cm "li"; cm "pa"] = UB UB_null.
Proof. vm_compute. reflexivity. Qed.
Example crash_se : categorize_tokens [cm "mi"; bv "klama"; cm "se"] = UB UB_null.
Proof. vm_compute. reflexivity. Qed.
Example crash_nahe : categorize_tokens [cm "na'e"] = UB UB_null.
Proof. vm_compute. reflexivity. Qed.
Example no_crash_li_pa_loho : items_after [cm "li"; cm "pa"; cm "lo'o"] = Some [W T_LI; W T_PA; W T_LOhO].
Proof. vm_compute. reflexivity. Qed.

(* ---- C13 ---- *)
(* every bracket and every core word belongs to a construct of its kind; the
   skips over constructs find their ends (no outcome but Ok and the crash of C12) *)
Theorem C13_well_marked : forall src l out, read_description stag_desc = Ok src ->
  forallb wordy l = true -> categorize_tokens l = Ok out -> well_marked src (map item_of out).
Proof. exact categorize_marked. Qed.
Print Assumptions C13_well_marked.

Theorem C13_skips_end : forall l, forallb wordy l = true ->
  categorize_tokens l = UB UB_null \/ exists out, categorize_tokens l = Ok out.
Proof. exact categorize_total. Qed.
Print Assumptions C13_skips_end.
