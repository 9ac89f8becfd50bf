(* C86: taking the comments out of the grammar. *)
From Coq Require Import Ascii String List.
From Verif Require Import UncomModel UncomSpec UncomProofs.
Import ListNotations.
Open Scope string_scope.
Open Scope list_scope.

(* every text is made of letters, comments and marks, with perhaps a comment without end *)
Theorem C86_parts : forall s, exists l t, s = (whole l ++ t)%string /\ proper l t /\ ending t.
Proof. exact every. Qed.
Print Assumptions C86_parts.
(* the letters and the marks are left, in order, and nothing else *)
Theorem C86_removed : forall l t, proper l t -> ending t -> uncom (whole l ++ t) = Some (left_over l).
Proof. exact uncom_parts. Qed.
Print Assumptions C86_removed.
(* what is left can contain a comment again *)
Theorem C86_again_refuted : exists s r, uncom s = Some r /\ uncom r <> Some r.
Proof. exists "//**/* x */", "/* x */". split; [vm_compute; reflexivity|vm_compute; discriminate]. Qed.
Print Assumptions C86_again_refuted.

Example C86_case : exists l, proper l "/* open" /\ ending "/* open" /\
  (whole l ++ "/* open" = "a/* b /* c */ d */ /* ET KEhE */;/* error */*/ /* open")%string /\ left_over l = "a /* ET KEhE */;/* error */*/ ".
Proof.
  exists [plain "a"; comment (letter " " (letter "b" (letter " " (nested (letter " " (letter "c" (letter " " done))) (letter " " (letter "d" (letter " " done)))))));
    plain " "; marked "/* ET KEhE */"; plain ";"; marked "/* error */"; plain "*"; plain "/"; plain " "].
  assert (B : forall l s, starts l s = false -> ~ begins l s) by (intros l s H B; apply starts_ok in B; congruence).
  assert (M : forall s, mark s = None -> forall m, stays m -> ~ begins m s).
  { intros s H m S [r ->]. rewrite (mark_stays m r S) in H. discriminate. }
  split; [|split; [|split; reflexivity]].
  - cbn [proper proper_inside]. repeat split; try exact I; try (apply B; reflexivity); try (apply M; reflexivity).
    + right. exists "KEhE". split; [discriminate|]. split; [repeat (apply Forall_cons; [apply letter_ok; reflexivity|]); apply Forall_nil|reflexivity].
    + left. reflexivity.
  - right. exists " open". split; [reflexivity|]. split; [|apply M; reflexivity].
    repeat (apply unclosed_letter; [apply B; reflexivity|apply B; reflexivity|]). apply unclosed_end.
Qed.
