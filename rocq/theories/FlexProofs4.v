(* Proofs for C85: layout and line numbers. *)
From Coq Require Import Ascii String List NArith Arith Bool Lia.
From Verif Require Import FlexModel FlexSpec FlexProofs FlexProofs2 FlexProofs3.
Import ListNotations.
Open Scope string_scope.
Open Scope list_scope.

Definition tok1 (p : piece) : list token :=
  match p with
  | word w => [word_token w] | quoted s => [T_STRING s]
  | sign s => match look s operators with Some k => [k] | None => [] end
  | _ => []
  end.
Definition out1 (p : piece) : string := match p with code _ _ ls => String.concat "" (map line_of ls) | _ => "" end.
Lemma sign_look : forall s k, sign_token s k -> look s operators = Some k.
Proof.
  intros s k H. unfold sign_token in H. cbn [In] in H.
  repeat (destruct H as [H|H]; [injection H as <- <-; reflexivity|]). destruct H.
Qed.
Lemma reads_matter : forall n l ts o, reads n l ts o ->
  map fst ts = flat_map tok1 (matter l) /\ o = String.concat "" (map out1 (matter l)).
Proof.
  induction 1 as [n|n w k l ts o K R [IH1 IH2]|n s k l ts o K R [IH1 IH2]|n s l ts o R IH|n l ts o R IH|n s l ts o R IH|n s l ts o R [IH1 IH2]|n a b ls l ts o R [IH1 IH2]];
    unfold matter in *; cbn [filter layout negb]; try exact IH; [split; reflexivity|..];
    cbn [map flat_map tok1 out1 app fst]; rewrite concat_cons.
  - split; [now rewrite (word_named w k K), IH1|exact IH2].
  - rewrite (sign_look s k K). cbn [app]. split; [now rewrite IH1|exact IH2].
  - split; [now rewrite IH1|exact IH2].
  - split; [exact IH1|now rewrite IH2].
Qed.
Lemma same_matter : forall l l', laid_out true l -> laid_out true l' -> matter l = matter l' ->
  exists ts ts' o, lex (text l) = Some (ts, o) /\ lex (text l') = Some (ts', o) /\ map fst ts = map fst ts'.
Proof.
  intros l l' H H' M. destruct (reads_some l true 1 H) as [ts [o R]]. destruct (reads_some l' true 1 H') as [ts' [o' R']].
  destruct (reads_matter _ _ _ _ R) as [A B]. destruct (reads_matter _ _ _ _ R') as [A' B'].
  exists ts, ts', o. split; [now apply lex_pieces|]. split; [|congruence].
  replace o with o' by congruence. now apply lex_pieces.
Qed.
Lemma line_ends_app : forall a b, line_ends (a ++ b) = (line_ends a + line_ends b)%N.
Proof. induction a; intro b; [reflexivity|]. change (String a a0 ++ b)%string with (String a (a0 ++ b)). cbn [line_ends]. rewrite IHa. lia. Qed.
Lemma line_ends_lacks : forall s, lacks newline s -> line_ends s = 0%N.
Proof.
  induction s; intro L; [reflexivity|]. cbn [line_ends]. rewrite IHs by (intro I; apply L; now right).
  destruct (Ascii.eqb_spec a newline); [subst; elim L; now left|reflexivity].
Qed.
Lemma sign_lacks : forall s k, sign_token s k -> line_ends s = 0%N.
Proof.
  intros s k H. unfold sign_token in H. cbn [In] in H.
  repeat (destruct H as [H|H]; [injection H as <- <-; reflexivity|]). destruct H.
Qed.
Lemma reads_line : forall n l ts o, reads n l ts o -> forall b, laid_out b l -> forall l1 w l2, l = l1 ++ word w :: l2 -> Forall plain l1 ->
  exists ts1 ts2 k, ts = ts1 ++ (k, (n + line_ends (text l1))%N) :: ts2 /\ named w k /\
    List.length ts1 = List.length (matter l1).
Proof.
  induction 1 as [n|n w k l ts o K R IH|n s k l ts o K R IH|n s l ts o R IH|n l ts o R IH|n s l ts o R IH|n s l ts o R IH|n a b ls l ts o R IH];
    intros bol LO l1 w0 l2 E P; destruct l1 as [|p l1]; cbn [app] in E; try discriminate E;
    inversion LO as [|b' p' l' S1 S2 S3 S4 S5]; subst; injection E as E1 E2; subst;
    try (exists [], ts, k; cbn [text map String.concat line_ends matter filter List.length app]; rewrite N.add_0_r; repeat split; assumption);
    inversion P as [|? ? P1 P2]; subst;
    destruct (IH _ S5 l1 w0 l2 eq_refl P2) as [ts1 [ts2 [k' [A [B C]]]]]; rewrite text_cons, line_ends_app; cbn [text1 sound plain] in *.
  - exists ((k, n) :: ts1), ts2, k'. split; [|split; [exact B|cbn [matter filter layout negb List.length]; f_equal; exact C]].
    rewrite A. rewrite (line_ends_lacks w) by (apply word_lacks, S1). reflexivity.
  - exists ((k, n) :: ts1), ts2, k'. split; [|split; [exact B|cbn [matter filter layout negb List.length]; f_equal; exact C]].
    rewrite A. rewrite (sign_lacks s k K). reflexivity.
  - exists ts1, ts2, k'. split; [|split; [exact B|exact C]]. rewrite A, (line_ends_lacks s) by (apply space_not_nl, S1). reflexivity.
  - exists ts1, ts2, k'. split; [|split; [exact B|exact C]]. rewrite A. cbn [line_ends]. rewrite Ascii.eqb_refl. match goal with |- _ ++ (_, ?a) :: _ = _ ++ (_, ?b) :: _ => replace b with a by lia end; reflexivity.
  - exists ts1, ts2, k'. split; [|split; [exact B|exact C]]. rewrite A. unfold line_of. rewrite line_ends_app, line_ends_app, (line_ends_lacks s S1).
    cbn [line_ends]. rewrite Ascii.eqb_refl. change (if ("#" =? newline)%char then 1%N else 0%N) with 0%N. match goal with |- _ ++ (_, ?a) :: _ = _ ++ (_, ?b) :: _ => replace b with a by lia end; reflexivity.
  - exists ((T_STRING s, n) :: ts1), ts2, k'. split; [|split; [exact B|cbn [matter filter layout negb List.length]; f_equal; exact C]].
    rewrite A. cbn [line_ends]. rewrite line_ends_app, (line_ends_lacks s P1). reflexivity.
  - elim P1.
Qed.
Lemma line_numbers : forall l1 w l2, laid_out true (l1 ++ word w :: l2) -> Forall plain l1 ->
  exists ts1 ts2 k o, lex (text (l1 ++ word w :: l2)) = Some (ts1 ++ (k, (1 + line_ends (text l1))%N) :: ts2, o) /\ named w k /\
    List.length ts1 = List.length (matter l1).
Proof.
  intros l1 w l2 H P. destruct (reads_some _ true 1 H) as [ts [o R]].
  destruct (reads_line _ _ _ _ R true H l1 w l2 eq_refl P) as [ts1 [ts2 [k [A [B C]]]]].
  exists ts1, ts2, k, o. split; [|split; assumption]. rewrite <- A. now apply lex_pieces.
Qed.
