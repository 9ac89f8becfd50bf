(* C89: the words and lines of the random text generator. *)
From Coq Require Import Ascii String List Bool Arith NArith.
From Verif Require Import TokData CmavoData RtgData RtgModel RtgSpec RtgProofs.
Import ListNotations.
Open Scope string_scope.
Open Scope list_scope.

(* every terminal gives a word of its list, and it is a word of its selma'o for the parser *)
Theorem C89_selmaho : forall s w l y, In (s, w, l) terminals -> random y ->
  exists x, choose w l y = Some x /\ In x l /\ (s = T_BRIVLA \/ s = T_CMENE \/ cmavo_of s x).
Proof. exact terminal_word. Qed.
Print Assumptions C89_selmaho.
(* the numbers that lead to an index are an interval, of the same size for all up to one *)
Theorem C89_even : forall n i, (0 < n)%N -> (i < n)%N ->
  exists a b, (forall y, int_rnd n y = i <-> (a <= y < b)%N) /\ (b <= 4294967296)%N /\
    (4294967296 / n <= b - a <= 4294967296 / n + 1)%N.
Proof. exact interval. Qed.
Print Assumptions C89_even.
(* words separated by one blank or line end, lines of at most 80 letters *)
Theorem C89_lines : forall xs, Forall (fun x => exists s w l, In (s, w, l) terminals /\ In x l) xs ->
  words (fst (emitted xs)) = xs ++ [""] /\ Forall (fun l => (String.length l <= 80)%nat) (lines (fst (emitted xs))).
Proof. exact output_text. Qed.
Print Assumptions C89_lines.
(* pick gives every word but the last one *)
Theorem C89_reached : forall l, (2 <= List.length l)%nat -> (N.of_nat (List.length l) <= 4294967296)%N ->
  (forall i, (i < List.length l - 1)%nat -> exists y, random y /\ choose Short l y = nth_error l i) /\
  (forall y, random y -> exists i, (i < List.length l - 1)%nat /\ choose Short l y = nth_error l i).
Proof. exact every_but_last. Qed.
Print Assumptions C89_reached.
(* so the last word of these lists never comes *)
Theorem C89_last_refuted : (exists s l, In (s, Short, l) terminals) /\
  forall s l y, In (s, Short, l) terminals -> random y -> choose Short l y <> Some (last l "").
Proof. split; [exists T_A, ["a"; "e"; "o"; "u"; "ji"]; left; reflexivity|exact never_last]. Qed.
Print Assumptions C89_last_refuted.

Example C89_case :
  In (T_A, Short, ["a"; "e"; "o"; "u"; "ji"]) terminals /\ random 4294967295 /\
  choose Short ["a"; "e"; "o"; "u"; "ji"] 4294967295 = Some "u" /\ cmavo_of T_A "u" /\
  (exists l, In (T_BAI, Whole, l) terminals /\ choose Whole l 4294967295 = Some (last l "")) /\
  int_rnd 3 1431655766 = 1%N /\ int_rnd 3 1431655765 = 0%N /\
  emitted ["a"; "london."] = ("a london. ", 10) /\
  lines (fst (emitted (repeat "london." 11))) =
    ["london. london. london. london. london. london. london. london. london. london."; "london. "].
Proof.
  split; [left; reflexivity|]. split; [reflexivity|]. split; [vm_compute; reflexivity|]. split; [|split].
  - destruct (terminal_word T_A Short ["a"; "e"; "o"; "u"; "ji"] 4294967295 (or_introl eq_refl) eq_refl) as (x & C & _ & [H|[H|H]]); try discriminate.
    assert (E : choose Short ["a"; "e"; "o"; "u"; "ji"] 4294967295 = Some "u") by (vm_compute; reflexivity).
    rewrite E in C. injection C as <-. exact H.
  - eexists. split; [right; left; reflexivity|vm_compute; reflexivity].
  - repeat split; vm_compute; reflexivity.
Qed.
