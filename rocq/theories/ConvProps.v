(* Property theorems C15: conversions. *)
From Coq Require Import String List NArith Bool Arith.
From Verif Require Import Base TokData CmavoData TokModel TreeModel ErasureProps ConvModel ConvSpec ConvProofs.
Import ListNotations.
Open Scope string_scope.
Open Scope list_scope.

(* ---- C15 ---- *)
(* every brivla of every tree gets the place that x1 of the converted selbri is,
   for any chain of conversions, and the conversion words are not glossed *)
Theorem C15_brivla_place : forall preset top ws p x anc ops qs,
  conv_mark_tu2s preset [] [] top = Ok ws ->
  subtree top p = Some (Leaf x) -> brivla x -> ancestors top [] p anc -> conversions anc ops qs ->
  preset p = false ->
  (forall n, In (p, Conv n) ws <-> n = enc (place (rev ops) 1)) /\
  Forall (fun q => In (q, DontGloss) ws) qs.
Proof. exact brivla_conv. Qed.
Print Assumptions C15_brivla_place.

(* no assertion fails and no null pointer is followed where each word stands in a
   tanru unit as the grammar prescribes *)
Theorem C15_total : forall preset top, placed top -> exists ws, conv_mark_tu2s preset [] [] top = Ok ws.
Proof. exact mark_total. Qed.
Print Assumptions C15_total.

(* se, te, ve, xe only permute the places, and undo themselves *)
Theorem C15_permutation : forall ps, (forall k, exists j, place (map Se ps) k = Some j) /\
  (forall j, exists! k, place (map Se ps) k = Some j).
Proof. exact se_permutes. Qed.
Print Assumptions C15_permutation.
Theorem C15_involution : forall p ops k, place (Se p :: Se p :: ops) k = place ops k.
Proof. exact se_twice. Qed.
Print Assumptions C15_involution.

(* converted BAI: the place goes to the second constituent, and a plain BAI gets 1 *)
Theorem C15_bai_place : forall t p ws q ch, conv_tag_se_bai p t = Ok ws ->
  (bai_reach t q (NT "SE_BAI" ch) -> forall n r, converts (p ++ q) ch n r ->
     In (p ++ q ++ [1], BaiConv n) ws /\ In (r, DontGloss) ws) /\
  (bai_reach t q (NT "BAI1" ch) -> In (p ++ q ++ [0], BaiConv 1) ws).
Proof. exact bai_conv. Qed.
Print Assumptions C15_bai_place.

(* but if the BAI carries an indicator the second constituent is the pair of them:
   the word itself gets no conversion, and se is not glossed either *)
Theorem C15_bai_word_refuted : exists t ws x p,
  conv_tag_se_bai [] t = Ok ws /\ bai_reach t [] t /\ (exists cc se, t = NT "SE_BAI" [Leaf se; NT "AUGMENTED" (Leaf x :: cc)]) /\
  subtree t p = Some (Leaf x) /\ cmtest x T_BAI = true /\
  (forall n, ~ In (p, BaiConv n) ws) /\ In ([0], DontGloss) ws.
Proof. exact bai_augmented. Qed.
Print Assumptions C15_bai_word_refuted.

(* ba'e se te jai ve klama ui : x1 is the second place of klama *)
Definition conv_tree : tree :=
  NT "SELBRI_2" [NT "SELBRI_3" [NT "SELBRI_4" [NT "SELBRI_5" [NT "SELBRI_6" [NT "TANRU_UNIT" [NT "TANRU_UNIT_1" [
    NT "TANRU_UNIT_2" [NT "SE_TU2" [NT "AUGMENTED" [Leaf (cm "ba'e"); Leaf (cm "se")];
      NT "SE_TU2" [Leaf (cm "te"); NT "JAI_TU2" [Leaf (cm "jai"); NT "SE_TU2" [Leaf (cm "ve");
        NT "TANRU_UNIT_2" [NT "AUGMENTED" [Leaf (bv "klama"); Leaf (cm "ui")]]]]]]]]]]]]]].
Example conv_tree_place : conv_mark_tu2s (fun _ => false) [] [] conv_tree = Ok
  [([0; 0; 0; 0; 0; 0; 0; 0; 1; 1; 1; 0], DontGloss); ([0; 0; 0; 0; 0; 0; 0; 0; 1; 0], DontGloss);
   ([0; 0; 0; 0; 0; 0; 0; 0; 0; 1], DontGloss); ([0; 0; 0; 0; 0; 0; 0; 0; 1; 1; 1; 1; 0; 0], Conv 2)].
Proof. vm_compute. reflexivity. Qed.
Example conv_ops : place (rev [Se 4; Jai; Se 3; Se 2]) 1 = Some 2.
Proof. reflexivity. Qed.
Example conv_tree_hyps : exists anc qs,
  ancestors conv_tree [] [0; 0; 0; 0; 0; 0; 0; 0; 1; 1; 1; 1; 0; 0] anc /\ conversions anc [Se 4; Jai; Se 3; Se 2] qs.
Proof.
  eexists. eexists. split.
  - unfold conv_tree. repeat (eapply an_child; [reflexivity| |cbn [String.eqb Ascii.eqb Bool.eqb app]; reflexivity]). apply an_here.
  -
    apply cs_transparent; [cbn [transparent In]; auto|].
    apply cs_se; [eapply cv_word; [reflexivity|vm_compute; reflexivity|vm_compute; reflexivity|unfold se_words; cbn [In]; auto]|].
    apply cs_jai; [auto|].
    apply cs_se; [eapply cv_word; [reflexivity|vm_compute; reflexivity|vm_compute; reflexivity|unfold se_words; cbn [In]; auto]|].
    apply cs_se; [eapply (cv_augmented _ _ _ [cm "ba'e"]); [reflexivity|vm_compute; reflexivity|vm_compute; reflexivity|vm_compute; reflexivity|unfold se_words; cbn [In]; auto]|].
    do 5 (apply cs_transparent; [cbn [transparent In]; auto 10|]).
    apply cs_whole; [intros (? & ? & ? & ? & ? & H); discriminate|].
    apply cs_transparent; [cbn [transparent In]; auto 10|]. apply cs_end.
Qed.
