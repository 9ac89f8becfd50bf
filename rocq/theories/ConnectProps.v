(* Property theorems C14: truth functions of logical connectives. *)
From Coq Require Import String List NArith Bool Arith.
From Verif Require Import Base TokData CmavoData TokModel TreeModel ErasureProps ConnectModel ConnectSpec ConnectProofs.
Import ListNotations.
Open Scope string_scope.
Open Scope list_scope.

(* ---- C14 ---- *)
(* an afterthought connective anywhere in any tree gets the truth table of its
   function *)
Theorem C14_afterthought : forall top ws p ty ch core m n1 c n2, connectives_processing top = Ok ws ->
  subtree top p = Some (NT ty ch) -> In (ty, core) afterthought -> core_word core ch m ->
  present T_NA ch n1 -> present T_SE ch c -> present T_NAI ch n2 ->
  connective_at ws p = Some (Logical CNP_AFTER (shown n1 c n2 m)).
Proof. exact afterthought_shown. Qed.
Print Assumptions C14_afterthought.

(* a forethought connective: both the first part and, if it is the only
   forethought connective of the phrase, the middle gik *)
Theorem C14_forethought : forall top ws p i j pty pch ty ch core gch m n1 c n2,
  connectives_processing top = Ok ws ->
  subtree top p = Some (NT pty pch) -> nth_error pch i = Some (NT ty ch) -> gik_child pch j gch ->
  In (ty, core) forethought -> core_word core ch m ->
  present T_NAI ch n1 -> present T_SE ch c -> present T_NAI gch n2 ->
  connective_at ws (p ++ [i]) = Some (Logical CNP_GE (shown n1 c n2 m)) /\
  ((forall k t, nth_error pch k = Some t -> is_forethought t = true -> k = i) ->
   connective_at ws (p ++ [j]) = Some (Logical CNP_GI (shown n1 c n2 m))).
Proof. exact forethought_shown. Qed.
Print Assumptions C14_forethought.

(* a non-logical forethought connective, joik gi or tense gi: both parts refer to the
   same joik or tense, with the negations that stand at the two gi *)
Theorem C14_joik_gi : forall top ws p i j k pty pch ch gch jch n2, connectives_processing top = Ok ws ->
  subtree top p = Some (NT pty pch) -> nth_error pch i = Some (NT "GEK" ch) -> gik_child pch j gch ->
  present T_GA ch false -> present T_GI ch true -> first_nt "JOIK" ch k jch -> present T_NAI gch n2 ->
  connective_at ws (p ++ [i]) = Some (Other CNP_GE_JOIK (p ++ [i; k]) false n2) /\
  ((forall k t, nth_error pch k = Some t -> is_forethought t = true -> k = i) ->
   connective_at ws (p ++ [j]) = Some (Other CNP_GI_JOIK (p ++ [i; k]) false n2)).
Proof. exact joik_gi_shown. Qed.
Print Assumptions C14_joik_gi.

Theorem C14_tense_gi : forall top ws p i j k pty pch ch gch ogch sch k' n1 n2, connectives_processing top = Ok ws ->
  subtree top p = Some (NT pty pch) -> nth_error pch i = Some (NT "GEK" ch) -> gik_child pch j gch ->
  present T_GA ch false -> present T_GI ch false -> first_nt "STAG" ch k sch -> first_nt "GIK" ch k' ogch ->
  present T_NAI ogch n1 -> present T_NAI gch n2 ->
  connective_at ws (p ++ [i]) = Some (Other CNP_GE_STAG (p ++ [i; k]) n1 n2) /\
  ((forall k t, nth_error pch k = Some t -> is_forethought t = true -> k = i) ->
   connective_at ws (p ++ [j]) = Some (Other CNP_GI_STAG (p ++ [i; k]) n1 n2)).
Proof. exact tense_gi_shown. Qed.
Print Assumptions C14_tense_gi.
(* pu gi nai mi gi do ; joi gi mi gi nai do *)
Definition stag_gi_tree : tree :=
  NT "SUMTI_4" [NT "GEK" [NT "STAG" [Leaf (cm "pu")]; NT "GIK" [Leaf (cm "gi"); Leaf (cm "nai")]]; Leaf (cm "mi");
    NT "GIK" [Leaf (cm "gi")]; Leaf (cm "do")].
Definition joik_gi_tree : tree :=
  NT "SUMTI_4" [NT "GEK" [NT "JOIK" [Leaf (cm "joi")]; Leaf (cm "gi")]; Leaf (cm "mi");
    NT "GIK" [Leaf (cm "gi"); Leaf (cm "nai")]; Leaf (cm "do")].
Example stag_gi_shown : connectives_processing stag_gi_tree =
  Ok [([0], Other CNP_GE_STAG [0; 0] true false); ([2], Other CNP_GI_STAG [0; 0] true false)].
Proof. vm_compute. reflexivity. Qed.
Example joik_gi_shown_ex : connectives_processing joik_gi_tree =
  Ok [([0], Other CNP_GE_JOIK [0; 0] false true); ([2], Other CNP_GI_JOIK [0; 0] false true)].
Proof. vm_compute. reflexivity. Qed.
Example stag_gi_meets : match stag_gi_tree with
  | NT _ (NT _ ch :: _) => present T_GA ch false /\ present T_GI ch false /\ first_nt "STAG" ch 0 [Leaf (cm "pu")] /\
      first_nt "GIK" ch 1 [Leaf (cm "gi"); Leaf (cm "nai")] | _ => False end.
Proof.
  cbn [stag_gi_tree]. split; [|split; [|split]].
  - intros x H. apply candidates_word in H. destruct H.
  - intros x H. apply candidates_word in H. destruct H.
  - split; [reflexivity|]. intros i c H. inversion H.
  - split; [reflexivity|]. intros i c H E. destruct i; [|inversion H; inversion H1]. injection E as <-. reflexivity.
Qed.

(* on a tree with the constituents the grammar prescribes no assertion fails *)
Theorem C14_total : forall top, regular top -> exists ws, connectives_processing top = Ok ws.
Proof. exact connectives_total. Qed.
Print Assumptions C14_total.

(* mi na se .u nai ba'e do ; ganai mi ginai do *)
Definition ek_tree : tree :=
  NT "SUMTI_2" [Leaf (cm "mi"); NT "EK" [Leaf (cm "na"); Leaf (cm "se"); NT "AUGMENTED" [Leaf (cm "ba'e"); Leaf (cm "u")]; Leaf (cm "nai")];
    Leaf (cm "do")].
Definition gek_tree : tree :=
  NT "SUMTI_4" [NT "GEK" [Leaf (cm "ga"); Leaf (cm "nai")]; Leaf (cm "mi"); NT "GIK" [Leaf (cm "gi"); Leaf (cm "nai")]; Leaf (cm "do")].
Example ek_shown : connectives_processing ek_tree = Ok [([1], Logical CNP_AFTER "FTFT")].
Proof. vm_compute. reflexivity. Qed.
Example gek_shown : connectives_processing gek_tree = Ok [([0], Logical CNP_GE "FTTT"); ([2], Logical CNP_GI "FTTT")].
Proof. vm_compute. reflexivity. Qed.
(* the hypotheses hold of these trees: whether or not, with the sides exchanged
   and both negated *)
Example ek_core : match subtree ek_tree [1] with
  | Some (NT ty ch) => core_word T_A ch (Fun (fun p _ => p)) /\ present T_NA ch true /\
      present T_SE ch true /\ present T_NAI ch true
  | _ => False end.
Proof.
  cbn [ek_tree subtree nth_error].
  assert (E : has_word T_A [Leaf (cm "na"); Leaf (cm "se"); NT "AUGMENTED" [Leaf (cm "ba'e"); Leaf (cm "u")]; Leaf (cm "nai")] (cm "u")).
  { eapply hw_augmented; [right; right; left; reflexivity|right; left; reflexivity|vm_compute; reflexivity]. }
  split; [split; [eauto|]|].
  - intros x H. apply candidates_word in H. 
    replace (cmavo_candidates [Leaf (cm "na"); Leaf (cm "se"); NT "AUGMENTED" [Leaf (cm "ba'e"); Leaf (cm "u")]; Leaf (cm "nai")] T_A) with [cm "u"] in H by (vm_compute; reflexivity).
    destruct H as [<-|[]]. split; [|vm_compute; reflexivity]. exists (code_of "u"), false. split; vm_compute; reflexivity.
  - split; [exists (cm "na")|split; [exists (cm "se")|exists (cm "nai")]]; eapply hw_child; cbn [In]; auto; vm_compute; reflexivity.
Qed.
Example ek_table : shown true true true (Fun (fun p _ => p)) = "FTFT".
Proof. reflexivity. Qed.
