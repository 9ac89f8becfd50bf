(* Property theorems C05-C10: quoting, compounds, emphasis, letterals, indicators. *)
From Coq Require Import String List NArith Bool Arith.
From Verif Require Import Base TokData CmavoData TokModel ErasureSpec ErasureProofs ErasureProps
  Lex2Spec Lex2Proofs Lex2Proofs2.
Import ListNotations.
Open Scope string_scope.

(* ---- C05 zo ---- *)
Theorem C05_zo_spec : forall l r, handle_zo l = Ok r <-> zo_spec l r.
Proof. exact handle_zo_ok. Qed.
Print Assumptions C05_zo_spec.

(* on tokens as the lexer makes them, the only way to fail is a zo that ends the
   text without being quoted *)
Theorem C05_zo_dangling : forall l, Forall lexer_token l ->
  (exists r, zo_spec l r) \/
  (handle_zo l = Exit 1 /\ exists a z r, l = (a ++ [z])%list /\ is_word "zo" z /\ zo_spec a r).
Proof. exact handle_zo_dangling. Qed.
Print Assumptions C05_zo_dangling.

Example C05_ex : handle_zo [cm "zo"; cm "zo"; cm "zo"; cm "mi"; bv "klama"] =
  Ok [set_dat (N_ZO "zo") (cm "zo"); set_dat (N_ZO "mi") (cm "zo"); bv "klama"].
Proof. vm_compute. reflexivity. Qed.
Example C05_ex_dangling : handle_zo [cm "zo"; cm "zo"; cm "zo"] = Exit 1.
Proof. vm_compute. reflexivity. Qed.
Example C05_ex_hyp : Forall lexer_token [cm "zo"; cm "zo"; bv "klama"].
Proof. each ltac:(vm_compute; exact I). Qed.

(* ---- C06 lo'u ---- *)
Theorem C06_lohu_spec : forall l r, Forall showable l -> (handle_lohu l = Ok r <-> lohu_spec l r).
Proof. exact handle_lohu_ok. Qed.
Print Assumptions C06_lohu_spec.

(* exactly three outcomes: success; abort on an empty quote; exit 1 on a missing le'u *)
Theorem C06_lohu_outcomes : forall l, Forall showable l ->
  (exists r, lohu_spec l r) \/
  (handle_lohu l = Abort /\
     exists a x e b r, l = (a ++ x :: e :: b)%list /\ cmavo_of T_LOhU x /\ cmavo_of T_LEhU e /\ lohu_spec a r) \/
  (handle_lohu l = Exit 1 /\
     exists a x b r, l = (a ++ x :: b)%list /\ cmavo_of T_LOhU x /\
                     Forall (fun n => ~ cmavo_of T_LEhU n) b /\ lohu_spec a r).
Proof. exact (fun l => lohu_loop_cases (S (length l)) l (le_n _)). Qed.
Print Assumptions C06_lohu_outcomes.

(* the buffer sized in the first pass of build_string_from_nodes is never overrun *)
Theorem C06_quote_buffer_safe : forall l k, build_string_from_nodes l <> UB k.
Proof. exact build_string_no_ub. Qed.
Print Assumptions C06_quote_buffer_safe.

Example C06_ex : handle_lohu [cm "mi"; cm "lo'u"; cm "le"; set_dat (N_ZO "si") (cm "zo"); cm "lo'u"; cm "le'u"; cm "do"] =
  Ok [cm "mi"; set_dat (N_LOhU "le zo+si lo'u") (cm "lo'u"); cm "do"].
Proof. vm_compute. reflexivity. Qed.
Example C06_ex_hyp : Forall showable [cm "mi"; cm "lo'u"; cm "le"; set_dat (N_ZO "si") (cm "zo"); cm "le'u"].
Proof. each ltac:(vm_compute; exact I). Qed.
(* finding: an empty quotation kills the program *)
Theorem C06_empty_quote_refuted : exists l, Forall lexer_token l /\ Forall showable l /\ handle_lohu l = Abort.
Proof.
  exists [cm "lo'u"; cm "le'u"]. split; [each ltac:(vm_compute; exact I)|].
  split; [each ltac:(vm_compute; exact I)|vm_compute; reflexivity].
Qed.
Print Assumptions C06_empty_quote_refuted.

(* ---- C07 zei ---- *)
Theorem C07_zei_spec : forall l r, handle_zei l = Ok (r, false) <-> zei_spec l r.
Proof. exact handle_zei_ok. Qed.
Print Assumptions C07_zei_spec.

Theorem C07_zei_words : forall l r, zei_spec l r -> Forall zei_ready l -> spell_all r = spell_all l.
Proof. exact zei_spec_spell. Qed.
Print Assumptions C07_zei_words.

Example C07_ex :
  exists r, handle_zei [cm "mi"; bv "klama"; cm "zei"; cm "a"; cm "zei"; bv "barda"; cm "do"; cm "zei"; cm "zei"] = Ok (r, false) /\
    length r = 3 /\ spell_all r = ["mi"; "klama"; "zei"; "a"; "zei"; "barda"; "do"; "zei"; "zei"].
Proof. eexists. vm_compute. repeat split. Qed.
Example C07_ex_hyp : Forall zei_ready [cm "mi"; bv "klama"; cm "zei"; cm "a"].
Proof.
  each ltac:(let H := fresh in intro H; split; [vm_compute; auto|vm_compute; first [reflexivity|exact I]]).
Qed.
(* finding: an error quote as operand kills the program *)
Theorem C07_quote_operand_refuted : exists l,
  Forall (fun n => units (dat n) <> None) l /\ handle_zei l = Abort.
Proof.
  exists [set_dat (N_LOhU "le") (cm "lo'u"); cm "zei"; bv "klama"].
  split; [each ltac:(vm_compute; discriminate)|vm_compute; reflexivity].
Qed.
Print Assumptions C07_quote_operand_refuted.

(* ---- C08 ba'e ---- *)
Theorem C08_bahe_words : forall l, Forall (fun n => bahe n = None) l ->
  spell_all (handle_bahe l) = spell_all l.
Proof. exact handle_bahe_spell. Qed.
Print Assumptions C08_bahe_words.

(* a ba'e stays in the main stream only at the end of the text or before fa'o *)
Theorem C08_bahe_stays : forall l a x b,
  handle_bahe l = (a ++ x :: b)%list -> cmtest x T_BAhE = true ->
  b = [] \/ exists y b', b = y :: b' /\ cmtest y T_FAhO = true.
Proof. exact (fun l => bahe_loop_stays l None). Qed.
Print Assumptions C08_bahe_stays.

(* every other word stays in the main stream, in place *)
Theorem C08_bahe_main : forall l,
  map dat (filter (fun n => negb (cmtest n T_BAhE)) (handle_bahe l)) =
  map dat (filter (fun n => negb (cmtest n T_BAhE)) l).
Proof. exact (fun l => bahe_loop_main l None). Qed.
Print Assumptions C08_bahe_main.

Example C08_ex : handle_bahe [cm "ba'e"; cm "za'e"; cm "mi"; bv "klama"; cm "ba'e"] =
  [set_bahe (Some (set_bahe (Some (cm "ba'e")) (cm "za'e"))) (cm "mi"); bv "klama"; cm "ba'e"].
Proof. vm_compute. reflexivity. Qed.
Example C08_ex_hyp : Forall (fun n => bahe n = None) [cm "ba'e"; cm "za'e"; cm "mi"].
Proof. each ltac:(vm_compute; reflexivity). Qed.

(* ---- C09 bu ---- *)
Theorem C09_bu_spec : forall l r, Forall unmarked l -> bu_spec l r -> handle_bu l = Ok r.
Proof. exact handle_bu_ok. Qed.
Print Assumptions C09_bu_spec.

Theorem C09_bu_spec_total : forall l, (forall y l', l = y :: l' -> ~ cmavo_of T_BU y) -> exists r, bu_spec l r.
Proof. exact bu_spec_total. Qed.
Print Assumptions C09_bu_spec_total.

Theorem C09_bu_first_aborts : forall x l, cmavo_of T_BU x -> handle_bu (x :: l) = Abort.
Proof. exact handle_bu_abort. Qed.
Print Assumptions C09_bu_first_aborts.

Example C09_ex : handle_bu [cm "mi"; cm "bu"; cm "bu"; cm "bu"; cm "a"; cm "bu"; bv "klama"] =
  Ok [set_dat (N_BU "mi.bu.bu") (cm "bu"); set_dat (N_BU "a") (cm "bu"); bv "klama"].
Proof. vm_compute. reflexivity. Qed.
Example C09_ex_hyp : Forall unmarked [cm "mi"; cm "bu"; bv "klama"].
Proof. each ltac:(intros t H; vm_compute in H; discriminate H). Qed.
(* finding: emphasis on the letter word is lost ("ba'e a bu" becomes "a bu") *)
Theorem C09_emphasis_kept_refuted : exists l r,
  handle_bu (handle_bahe l) = Ok r /\ spell_all r <> spell_all l.
Proof.
  exists [cm "ba'e"; cm "a"; cm "bu"]. eexists. split; [vm_compute; reflexivity|].
  vm_compute. discriminate.
Qed.
Print Assumptions C09_emphasis_kept_refuted.

(* ---- C10 indicators ---- *)
Theorem C10_suffix_spec : forall l r, Forall wf_cmavo l ->
  (pair_off_indicator_suffixes l = Ok r <-> pair_spec l r).
Proof. exact pair_off_ok. Qed.
Print Assumptions C10_suffix_spec.

Theorem C10_attach_spec : forall l t, Forall wf_cmavo l -> pair_spec l t ->
  exists init g, t = (init ++ group_flat g)%list /\ Forall indicator init /\ groups_ok g /\
    handle_indicators l = Ok (init ++ map attach g)%list.
Proof. exact handle_indicators_shape. Qed.
Print Assumptions C10_attach_spec.

Theorem C10_total : forall l, Forall wf_cmavo l -> exists r, handle_indicators l = Ok r.
Proof. exact handle_indicators_total. Qed.
Print Assumptions C10_total.

Theorem C10_words : forall l r, Forall wf_cmavo l -> Forall suffix_ready l -> no_cuhi_nai l ->
  handle_indicators l = Ok r -> spell_all r = spell_all l.
Proof. exact handle_indicators_spell. Qed.
Print Assumptions C10_words.

Example C10_ex : handle_indicators [cm "fu'e"; cm "ui"; cm "nai"; cm "mi"; cm "ui"; cm "nai"; cm "cai"; cm "nai"; cm "o'o"; bv "klama"] =
  Ok [cm "fu'e"; set_neg true (cm "ui");
      set_ui [set_cai (Some CC_CAINAI) (set_neg true (cm "ui")); cm "o'o"] (cm "mi"); bv "klama"].
Proof. vm_compute. reflexivity. Qed.
Example C10_ex_hyp : let l := [cm "mi"; cm "ui"; cm "nai"; cm "cai"; cm "nai"; cm "o'o"; bv "klama"] in
  Forall wf_cmavo l /\ Forall suffix_ready l /\ no_cuhi_nai l.
Proof.
  cbv zeta. split; [|split].
  - each ltac:(vm_compute; first [reflexivity|exact I]).
  - each ltac:(split; [intros _; vm_compute; reflexivity|vm_compute; auto]).
  - cbn [no_cuhi_nai head_is]. repeat split; try exact I;
      intros (s & c & f & H & Hw); vm_compute in H; try discriminate H; injection H as <- <- <-; vm_compute in Hw; discriminate Hw.
Qed.
(* findings: the nai of "cu'i nai" and emphasis on a suffix are lost *)
Theorem C10_cuhi_nai_refuted : exists l r, Forall wf_cmavo l /\ Forall suffix_ready l /\
  handle_indicators l = Ok r /\ spell_all r <> spell_all l.
Proof.
  exists [cm "mi"; cm "ui"; cm "cu'i"; cm "nai"]. eexists. split; [each ltac:(vm_compute; first [reflexivity|exact I])|].
  split; [each ltac:(split; [intros _; vm_compute; reflexivity|vm_compute; auto])|].
  split; [vm_compute; reflexivity|vm_compute; discriminate].
Qed.
Print Assumptions C10_cuhi_nai_refuted.
Theorem C10_emphasised_suffix_refuted : exists l r, Forall wf_cmavo l /\ no_cuhi_nai l /\
  handle_indicators (handle_bahe l) = Ok r /\ spell_all r <> spell_all l.
Proof.
  exists [cm "mi"; cm "ui"; cm "ba'e"; cm "nai"]. eexists. split; [each ltac:(vm_compute; first [reflexivity|exact I])|split].
  - cbn [no_cuhi_nai head_is]. repeat split; try exact I;
      intros (s & c & f & H & Hw); vm_compute in H; try discriminate H; injection H as <- <- <-; vm_compute in Hw; discriminate Hw.
  - split; [vm_compute; reflexivity|vm_compute; discriminate].
Qed.
Print Assumptions C10_emphasised_suffix_refuted.
