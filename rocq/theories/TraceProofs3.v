From Coq Require Import String List NArith ZArith Bool Arith Lia.
From Verif Require Import Base TokData TokModel StreamModel TraceModel TraceSpec TraceProofs TraceProofs2.
From Verif Require TransModel.
Import ListNotations.
Open Scope string_scope.
Open Scope list_scope.

Lemma sapp_assoc a b c : ((a ++ b) ++ c = a ++ (b ++ c))%string.
Proof. induction a as [|x a IH]; [reflexivity | exact (f_equal (String x) IH)]. Qed.
Fixpoint cat (l : list string) : string := match l with [] => "" | x :: l => (x ++ cat l)%string end.
Lemma cat_concat l : String.concat "" l = cat l.
Proof. induction l as [|x l IH]; [reflexivity |]. destruct l as [|y l]; [symmetry; apply app_empty |]. change (String.concat "" (x :: y :: l)) with (x ++ "" ++ String.concat "" (y :: l))%string. rewrite IH. reflexivity. Qed.
Lemma cat_app a b : cat (a ++ b) = (cat a ++ cat b)%string.
Proof. induction a as [|x a IH]; [reflexivity |]. cbn [app cat]. rewrite IH, sapp_assoc. reflexivity. Qed.
Lemma spaced_cons x l : spaced (x :: l) = (" " ++ x ++ spaced l)%string.
Proof. unfold spaced. rewrite !cat_concat. cbn [map cat]. rewrite sapp_assoc. reflexivity. Qed.
Lemma concat_cons x l : String.concat " " (x :: l) = (x ++ spaced l)%string.
Proof.
  revert x. induction l as [|y l IH]; intro x; [symmetry; apply app_empty |]. change (String.concat " " (x :: y :: l)) with (x ++ " " ++ String.concat " " (y :: l))%string. rewrite IH, spaced_cons. reflexivity.
Qed.

(* from the i-th symbol on *)
Lemma rest_plain l : forall i n, 0 < i -> (n <= i \/ i + List.length l < n) -> show_rhs i l n = spaced (map visible l).
Proof.
  induction l as [|x l IH]; intros i n I N; [reflexivity |]. cbn [show_rhs map]. rewrite spaced_cons. cbn [List.length] in N.
  destruct (Nat.ltb_spec 0 i); [| lia]. destruct (Nat.eqb_spec (i + 1) n); [lia |]. rewrite IH by lia. reflexivity.
Qed.
Lemma rest_dotted l : forall i n, 0 < i -> i < n -> n <= i + List.length l ->
  show_rhs i l n = (spaced (firstn (n - i) (map visible l)) ++ " ." ++ spaced (skipn (n - i) (map visible l)))%string.
Proof.
  induction l as [|x l IH]; intros i n I N L; cbn [List.length] in L; [lia |]. cbn [show_rhs map].
  destruct (Nat.ltb_spec 0 i); [| lia]. destruct (n - i) as [|m] eqn:M; [lia |]. cbn [firstn skipn]. rewrite spaced_cons.
  destruct (Nat.eqb_spec (i + 1) n) as [E|E].
  - assert (m = 0) by lia. subst m. cbn [firstn skipn]. rewrite rest_plain by lia. unfold visible at 1 2, is_private. change (spaced []) with "". rewrite !sapp_assoc. reflexivity.
  - rewrite IH by lia. replace (n - S i) with m by lia. rewrite !sapp_assoc. reflexivity.
Qed.
Lemma show_dotted n l : show_rhs 0 l n = dotted n l.
Proof.
  unfold dotted. rewrite map_length. destruct l as [|x l].
  - cbn. destruct n as [|n]; reflexivity.
  - cbn [show_rhs map List.length]. destruct (Nat.ltb_spec 0 0); [lia |].
    destruct (Nat.eqb_spec n 0) as [->|Z]; cbn [orb].
    + rewrite concat_cons. cbn [Nat.eqb Nat.add]. rewrite rest_plain by lia. reflexivity.
    + destruct (Nat.ltb_spec (S (List.length l)) n) as [L|L].
      * rewrite concat_cons. destruct (Nat.eqb_spec (0 + 1) n); [lia |]. rewrite rest_plain by lia. reflexivity.
      * destruct n as [|n]; [lia |]. cbn [firstn skipn]. rewrite concat_cons. destruct (Nat.eqb_spec (0 + 1) (S n)) as [E|E].
        -- assert (n = 0) by lia. subst n. cbn [firstn skipn]. rewrite rest_plain by lia. change (spaced []) with "". rewrite app_empty. reflexivity.
        -- rewrite rest_dotted by lia. replace (S n - 1) with n by lia. rewrite !sapp_assoc. reflexivity.
Qed.
Lemma snd_also a b : snd (also a b) = (snd a ++ snd b)%string.
Proof. reflexivity. Qed.
Lemma snd_err s : snd (err s) = s.
Proof. reflexivity. Qed.
Lemma rule_err T r n : snd (display_rule T r n) = rule_line T r n.
Proof. unfold display_rule, rule_line. cbn [snd]. rewrite show_dotted. reflexivity. Qed.
Lemma each_err {A} (f : A -> streams) g l : (forall x, snd (f x) = cat (g x)) -> snd (each f l) = cat (flat_map g l).
Proof.
  intro H. induction l as [|x l IH]; [reflexivity |]. change (each f (x :: l)) with (also (f x) (each f l)). rewrite snd_also, IH, H. cbn [flat_map]. rewrite cat_app. reflexivity.
Qed.
Lemma items_err T st : snd (each (fun i => display_rule T (fst i) (snd i)) (items T st)) = cat (rules_of T st).
Proof.
  rewrite (each_err _ (fun i => [rule_line T (fst i) (snd i)])) by (intro x; rewrite rule_err; symmetry; apply app_empty).
  unfold rules_of. induction (items T st) as [|x l IH]; [reflexivity |]. cbn [flat_map map app cat]. rewrite IH. reflexivity.
Qed.
Lemma reduced_err T r : snd (show_reduced T r) = cat (reduced_lines T r).
Proof.
  unfold show_reduced, reduced_lines. rewrite snd_also, rule_err, snd_err. cbn [cat]. f_equal. unfold classes, spaced, is_private.
  destruct (filter (fun x => negb (String.prefix "PRIVATE_" x)) (shifts T (fst r))) as [|c cs]; [reflexivity |]. cbn [List.length Nat.eqb cat]. rewrite app_empty. reflexivity.
Qed.
Lemma report_err T name ssm ts s l st below w : print_last_toks name ssm ts s = Ok w ->
  exists out, report_trace_error true T name ssm ts s l st below =
    Ok (out, "--------------------" ++ nl ++ "SYNTAX ERROR IN TEXT" ++ nl ++ "--------------------" ++ nl ++ w ++ "--------------------" ++ nl ++ String.concat "" (report_lines T l st below))%string.
Proof.
  intro W. unfold report_trace_error. rewrite W. cbn [obind]. eexists. rewrite cat_concat.
  match goal with |- Ok ?p = Ok (?a, ?b) => let H := fresh in assert (H : snd p = b); [| rewrite <- H, (surjective_pairing p); reflexivity] end.
  unfold report_lines. rewrite !cat_app, !snd_also, !snd_err.
  match goal with |- context [(snd ?m ++ (snd (show_jammed T st) ++ _))%string] =>
    assert (R : snd m = cat (if Nat.eqb (List.length l) 0 then ["  NONE"; nl] else flat_map (reduced_lines T) l)) end.
  { destruct l as [|r l]; [reflexivity |]. cbn [List.length Nat.eqb]. apply each_err. intro x. apply reduced_err. }
  rewrite R. unfold show_jammed. rewrite !snd_also, !snd_err, items_err.
  rewrite (each_err (show_pending T) (fun s => "State " :: TransModel.zdec (Z.of_nat s) :: nl :: rules_of T s ++ ["---------------------------"; nl])).
  2: { intro x. unfold show_pending. rewrite !snd_also, !snd_err, items_err. cbn [cat]. rewrite cat_app. cbn [cat]. rewrite app_empty, !sapp_assoc. reflexivity. }
  cbn [cat]. rewrite !app_empty. rewrite !sapp_assoc. reflexivity.
Qed.
