(* Property theorem C53: the single look-ahead markers. *)
From Coq Require Import String List NArith Bool Arith.
From Verif Require Import Base TokData CmavoData TokModel ErasureProps CategModel CategSpec CategProps.
From Verif Require Import AheadSpec AheadProofs5.
Import ListNotations.
Open Scope string_scope.
Open Scope list_scope.

(* .i pu je ca bo mi na.a nai ke do .i je bo ti je pu ke ta joi bo .i jo mi gi'e bo
   mu pi mai ci moi na'e bo na ku re roi mi *)
Definition ahead_sample : list node :=
  [cm "i"; cm "pu"; cm "je"; cm "ca"; cm "bo"; cm "mi"; cm "na"; cm "a"; cm "nai"; cm "ke"; cm "do";
   cm "i"; cm "je"; cm "bo"; cm "ti"; cm "je"; cm "pu"; cm "ke"; cm "ta"; cm "joi"; cm "bo"; cm "i"; cm "jo"; cm "mi";
   cm "gi'e"; cm "bo"; cm "mu"; cm "pi"; cm "mai"; cm "ci"; cm "moi"; cm "na'e"; cm "bo"; cm "na"; cm "ku"; cm "re"; cm "roi"; cm "mi"].
Example ahead_wordy : forallb wordy ahead_sample = true.
Proof. vm_compute. reflexivity. Qed.
(* every kind of single marker but two occurs in the result *)
Example ahead_marked : option_map (filter (fun i => negb (counts i))) (items_after ahead_sample) = Some
  [M T_PRIVATE_I_BO; M T_PRIVATE_EK_KE; M T_PRIVATE_I_BO; M T_PRIVATE_JEK_KE; M T_PRIVATE_JOIK_BO; M T_PRIVATE_I_JEKJOIK;
   M T_PRIVATE_GIHEK_BO; M T_PRIVATE_NUMBER_MAI; M T_PRIVATE_NUMBER_MOI; M T_PRIVATE_NAhE_BO; M T_PRIVATE_NA_KU; M T_PRIVATE_NUMBER_ROI].
Proof. vm_compute. reflexivity. Qed.
(* the jek inside a chain of tenses and the one after i get no marker of their own *)
Example ahead_chain : items_after [cm "i"; cm "pu"; cm "je"; cm "ca"; cm "ke"; cm "mi"] = Some
  [W T_I; M T_PRIVATE_START_TENSE; W T_PU; M T_PRIVATE_END_TENSE; M T_PRIVATE_START_JEK; W T_JA; M T_PRIVATE_END_JEK;
   M T_PRIVATE_START_TENSE; W T_PU; M T_PRIVATE_END_TENSE; W T_KE; W T_KOhA].
Proof. vm_compute. reflexivity. Qed.

(* ---- C53 ---- *)
(* each single marker stands before every word or bracket where its construct begins,
   and nowhere else *)
Theorem C53_markers_exact : forall l out,
  forallb wordy l = true -> categorize_tokens l = Ok out -> singles_exact (map item_of out).
Proof. exact singles_ok. Qed.
Print Assumptions C53_markers_exact.
