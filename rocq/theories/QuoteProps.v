(* C54: the order of the word-grouping passes; quoted words have no effect.
   C08: the places of the emphasis words. *)
From Coq Require Import String List NArith Bool Arith.
From Verif Require Import Base TokData CmavoData TokModel ErasureSpec ErasureProofs ErasureProps Lex2Spec Lex2Proofs Lex2Proofs2
  QuoteSpec QuoteProofs QuotePipe.
Import ListNotations.
Open Scope string_scope.
Open Scope list_scope.

(* ---- C08 ---- *)
Theorem C08_bahe_spec : forall l r, handle_bahe l = r <-> bahe_spec l r.
Proof. exact bahe_iff. Qed.
Print Assumptions C08_bahe_spec.
Example C08_spec_ex : bahe_spec [cm "mi"; cm "ba'e"; cm "za'e"; bv "klama"; cm "ba'e"; cm "fa'o"]
  [cm "mi"; set_bahe (Some (set_bahe (Some (cm "ba'e")) (cm "za'e"))) (bv "klama"); cm "ba'e"; cm "fa'o"].
Proof. apply bahe_iff. vm_compute. reflexivity. Qed.

(* ---- C54 ---- *)
(* whatever words are quoted by zo or lo'u, the program does the same thing, and
   the items differ in the text of the quotations only *)
Theorem C54_quoted_inert : forall l l', quotes_differ l l' ->
  same_outcome group_alike (group_tokens l) (group_tokens l').
Proof. exact quoted_inert. Qed.
Print Assumptions C54_quoted_inert.

Definition quote_of (w : node) : list node :=
  [cm "mi"; cm "zo"; w; cm "lo'u"; cm "zo"; w; bv "klama"; cm "le'u"; bv "klama"; cm "si"; cm "ui"].
Lemma not_zo x : is_zo x = false -> ~ is_word "zo" x. Proof. apply is_zo_false. Qed.
Lemma yes_zo x : is_zo x = true -> is_word "zo" x. Proof. apply is_zo_iff. Qed.
Lemma not_cm x t : cmtest x t = false -> ~ cmavo_of t x. Proof. apply cmtest_false. Qed.
Lemma yes_cm x t : cmtest x t = true -> cmavo_of t x. Proof. apply cmtest_iff. Qed.
Lemma reading x t : zo_text x = Some t -> reads x t. Proof. apply reads_iff. Qed.
Ltac oneq := first [apply not_zo; vm_compute; reflexivity | apply yes_zo; vm_compute; reflexivity
  | apply not_cm; vm_compute; reflexivity | apply yes_cm; vm_compute; reflexivity
  | apply reading; vm_compute; reflexivity | vm_compute; exact I | discriminate].
Example C54_ex :
  quotes_differ (quote_of (cm "lo'u")) (quote_of (cm "le'u")) /\ quotes_differ (quote_of (cm "si")) (quote_of (bv "barda")) /\
  (exists r, group_tokens (quote_of (cm "lo'u")) = Ok (r, [], false) /\ List.length r = 3) /\
  (exists r, group_tokens (quote_of (cm "si")) = Ok (r, [], false) /\ List.length r = 3).
Proof.
  assert (B : forall w t, zo_text w = Some t -> body [cm "zo"; w; bv "klama"]).
  { intros w t R. eapply bd_zo; [oneq | apply reading; exact R |]. apply bd_word; [oneq | oneq | oneq | constructor]. }
  assert (Q : forall w w' t t', zo_text w = Some t -> zo_text w' = Some t' -> quotes_differ (quote_of w) (quote_of w')).
  { intros w w' t t' R R'. unfold quote_of. apply qd_word; [oneq | oneq |].
    eapply qd_zo; [oneq | apply reading; exact R | apply reading; exact R' |].
    apply (qd_lohu (cm "lo'u") [cm "zo"; w; bv "klama"] [cm "zo"; w'; bv "klama"] (cm "le'u"));
      [oneq | oneq | eapply B; exact R | eapply B; exact R' | discriminate | discriminate | oneq | oneq |].
    repeat (apply qd_word; [oneq | oneq |]). constructor. }
  split; [eapply Q; vm_compute; reflexivity |]. split; [eapply Q; vm_compute; reflexivity |].
  split; eexists; (split; [vm_compute; reflexivity | reflexivity]).
Qed.

(* all the passes together *)
Theorem C54_order : forall sa su, sa_law sa -> su_law su -> forall l r w,
  Forall lexer_token l -> Forall wf_cmavo l ->
  (group_tokens l = Ok (r, w, false) <-> stages sa su l r w).
Proof. exact pipe. Qed.
Print Assumptions C54_order.
Example C54_order_ex :
  let l := [cm "ba'e"; cm "mi"; cm "zo"; cm "si"; cm "si"; cm "si"; cm "zei"; bv "klama"; cm "ui"] in
  Forall lexer_token l /\ Forall wf_cmavo l /\
  exists r, group_tokens l = Ok (r, [], false) /\ stages handle_sa handle_su l r [] /\ map (fun n => List.length (ui n)) r = [1].
Proof.
  cbv zeta. assert (T : Forall lexer_token [cm "ba'e"; cm "mi"; cm "zo"; cm "si"; cm "si"; cm "si"; cm "zei"; bv "klama"; cm "ui"])
    by (each ltac:(vm_compute; exact I)).
  assert (W : Forall wf_cmavo [cm "ba'e"; cm "mi"; cm "zo"; cm "si"; cm "si"; cm "si"; cm "zei"; bv "klama"; cm "ui"])
    by (each ltac:(vm_compute; first [reflexivity | exact I])).
  split; [exact T |]. split; [exact W |]. eexists. split; [vm_compute; reflexivity |].
  split; [| vm_compute; reflexivity].
  apply (C54_order _ _ C02_sa_law C03_su_law); [exact T | exact W | vm_compute; reflexivity].
Qed.

(* grouping always comes to an end *)
Theorem C54_ends : forall l, group_tokens l <> NoFuel.
Proof. exact nf_group. Qed.
Print Assumptions C54_ends.
