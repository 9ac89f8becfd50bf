(* Proofs for C85. *)
From Coq Require Import Ascii String List NArith Arith Bool Lia.
From Verif Require Import FlexModel FlexSpec.
Import ListNotations.
Open Scope string_scope.
Open Scope list_scope.

Lemma app_assoc_s : forall a b c : string, ((a ++ b) ++ c = a ++ (b ++ c))%string.
Proof. induction a; intros; [reflexivity|]. exact (f_equal (String a) (IHa b c)). Qed.
Lemma app_nil_s : forall a : string, (a ++ "" = a)%string.
Proof. induction a; [reflexivity|]. exact (f_equal (String a) IHa). Qed.
Lemma len_app : forall a b : string, String.length (a ++ b) = String.length a + String.length b.
Proof. induction a; intros; [reflexivity|]. exact (f_equal S (IHa b)). Qed.
Lemma sub_app : forall a b : string, substring 0 (String.length a) (a ++ b) = a.
Proof. induction a; intro b; [destruct b; reflexivity|]. exact (f_equal (String a) (IHa b)). Qed.
Lemma after_app : forall a b : string, after (String.length a) (a ++ b) = b.
Proof. induction a; intro b; [destruct b; reflexivity|]. exact (IHa b). Qed.
Lemma concat_cons : forall a l, String.concat "" (a :: l) = (a ++ String.concat "" l)%string.
Proof. intros a [|b l]; [cbn; symmetry; apply app_nil_s|reflexivity]. Qed.

Definition stops (p : ascii -> bool) (s : string) : Prop := match s with "" => True | String c _ => p c = false end.
Lemma span_app : forall p a b, Forall (fun c => p c = true) (list_ascii_of_string a) -> stops p b ->
  span p (a ++ b)%string = String.length a.
Proof.
  induction a; intros b A B.
  - destruct b; [reflexivity|]. cbn in B. cbn [append span String.length]. now rewrite B.
  - cbn [list_ascii_of_string] in A. inversion A as [|? ? A1 A2]; subst.
    change (span p (String a (a0 ++ b)) = S (String.length a0)). cbn [span]. rewrite A1. f_equal. now apply IHa.
Qed.
Lemma forallb_ascii : forall P : ascii -> bool,
  forallb P (map ascii_of_nat (seq 0 256)) = true -> forall c, P c = true.
Proof.
  intros P H c. rewrite forallb_forall in H. apply H. rewrite <- (ascii_nat_embedding c). apply in_map.
  apply in_seq. pose proof (nat_ascii_bounded c). lia.
Qed.
Definition name_charb (c : ascii) : bool :=
  existsb (Ascii.eqb c) (list_ascii_of_string "abcdefghijklmnopqrstuvwxyzABCDEFGHIJKLMNOPQRSTUVWXYZ0123456789_.").
Lemma name_char_word : forall c, name_char c <-> word_char c = true.
Proof.
  intro c. assert (E : Bool.eqb (name_charb c) (word_char c) = true).
  { revert c. apply (forallb_ascii (fun c => Bool.eqb (name_charb c) (word_char c))). vm_compute. reflexivity. }
  apply eqb_prop in E. rewrite <- E. unfold name_charb, name_char. rewrite existsb_exists. split.
  - intro I. exists c. split; [exact I|apply Ascii.eqb_refl].
  - intros [x [I Q]]. apply Ascii.eqb_eq in Q. now subst.
Qed.
Lemma blank_ok : forall c, space_or_tab c <-> blank c = true.
Proof.
  intro c. unfold space_or_tab, blank. rewrite orb_true_iff, !Ascii.eqb_eq. reflexivity.
Qed.
Lemma all_span : forall P p a, (forall c, P c <-> p c = true) -> all_of P a ->
  Forall (fun c => p c = true) (list_ascii_of_string a).
Proof. intros P p a H A. unfold all_of in A. eapply Forall_impl; [|exact A]. intros c. apply H. Qed.
Lemma lacks_span : forall c a, lacks c a -> Forall (fun x => negb (Ascii.eqb x c) = true) (list_ascii_of_string a).
Proof.
  intros c a L. apply Forall_forall. intros x I. destruct (Ascii.eqb_spec x c); [subst; now elim L|reflexivity].
Qed.

(* ------------------------------------------------------------------ the choice of a rule *)
Lemma pick_skip : forall rs rs' s b, (forall p a, In (p, a) rs -> p s = None) -> pick (rs ++ rs') s b = pick rs' s b.
Proof.
  induction rs as [|[p a] rs IH]; intros rs' s b H; [reflexivity|]. cbn [app pick].
  rewrite (H p a (or_introl eq_refl)). apply IH. intros q c I. apply (H q c). now right.
Qed.
Lemma prefix_app : forall l w r, prefix l (w ++ r) = true -> Forall (fun c => word_char c = true) (list_ascii_of_string l) ->
  stops word_char r -> String.length l <= String.length w /\ (String.length l = String.length w -> l = w).
Proof.
  induction l as [|c l IH]; intros w r P L R.
  - split; [cbn; lia|]. destruct w; [reflexivity|discriminate].
  - cbn [list_ascii_of_string] in L. inversion L as [|? ? L1 L2]; subst. destruct w as [|d w].
    + destruct r as [|e r]; [discriminate|]. cbn [append prefix] in P. destruct (ascii_dec c e); [|discriminate].
      subst. cbn in R. congruence.
    + change (String d w ++ r)%string with (String d (w ++ r)) in P. cbn [prefix] in P.
      destruct (ascii_dec c d); [|discriminate]. subst. destruct (IH w r P L2 R) as [A B].
      split; [cbn [String.length]; lia|]. cbn [String.length]. intro Q. f_equal. apply B. lia.
Qed.
Lemma prefix_self : forall w r, prefix w (w ++ r) = true.
Proof.
  induction w; intro r; [destruct r; reflexivity|]. change (String a w ++ r)%string with (String a (w ++ r)).
  cbn [prefix]. destruct (ascii_dec a a); [apply IHw|congruence].
Qed.
Definition look (w : string) (ks : list (string * token)) : option token :=
  match find (fun x => String.eqb (fst x) w) ks with Some x => Some (snd x) | None => None end.
Lemma pick_cons : forall p a rs s b, pick ((p, a) :: rs) s b =
  pick rs s (match p s with None => b
    | Some n => match b with Some (m, _) => if (m <? n)%nat then Some (n, a) else b | None => Some (n, a) end end).
Proof. reflexivity. Qed.
Lemma pick_fixed : forall l k ks rs s b, pick (fixed ((l, k) :: ks) ++ rs) s b =
  pick (fixed ks ++ rs) s (if prefix l s then
    match b with Some (m, _) => if (m <? String.length l)%nat then Some (String.length l, A_tok k) else b
    | None => Some (String.length l, A_tok k) end else b).
Proof. intros. cbn [fixed map app pick fst snd]. unfold lit at 2. destruct (prefix l s); reflexivity. Qed.
Lemma pick_keywords : forall w r ks rs, stops word_char r ->
  Forall (fun x => Forall (fun c => word_char c = true) (list_ascii_of_string (fst x))) ks ->
  (forall k, pick (fixed ks ++ rs) (w ++ r) (Some (String.length w, k)) = pick rs (w ++ r) (Some (String.length w, k))) /\
  (forall b, match b with Some (n, _) => n < String.length w | None => True end ->
    exists b', match b' with Some (n, _) => n < String.length w | None => True end /\
    pick (fixed ks ++ rs) (w ++ r) b =
      pick rs (w ++ r) (match look w ks with Some k => Some (String.length w, A_tok k) | None => b' end)).
Proof.
  intros w r ks rs R. induction ks as [|[l k] ks IH]; intro F.
  - split; [reflexivity|]. intros b B. exists b. split; [exact B|reflexivity].
  - inversion F as [|? ? F1 F2]; subst. cbn [fst] in F1. destruct (IH F2) as [IH1 IH2]. clear IH. split.
    + intro k0. rewrite pick_fixed. destruct (prefix l (w ++ r)) eqn:P; [|apply IH1].
      destruct (prefix_app _ _ _ P F1 R) as [A _].
      replace (String.length w <? String.length l)%nat with false by (symmetry; apply Nat.ltb_ge; exact A). apply IH1.
    + intros b B. rewrite pick_fixed.
      unfold look. cbn [find fst]. destruct (String.eqb_spec l w) as [->|N].
      * rewrite prefix_self. exists None. split; [exact I|]. cbn [snd].
        destruct b as [[n a]|]; [|apply IH1].
        replace (n <? String.length w)%nat with true by (symmetry; apply Nat.ltb_lt; exact B). apply IH1.
      * destruct (prefix l (w ++ r)) eqn:P; [|exact (IH2 b B)].
        destruct (prefix_app _ _ _ P F1 R) as [A Q].
        assert (String.length l < String.length w) by (destruct (Nat.eq_dec (String.length l) (String.length w)); [elim N; auto|lia]).
        apply IH2. destruct b as [[n a]|]; [|assumption]. destruct (n <? String.length l)%nat; assumption.
Qed.
Lemma keywords_words : Forall (fun x => Forall (fun c => word_char c = true) (list_ascii_of_string (fst x))) keywords.
Proof.
  apply Forall_forall. intros x I. apply Forall_forall. intros c J.
  assert (H : forallb (fun x => forallb word_char (list_ascii_of_string (fst x))) keywords = true) by reflexivity.
  rewrite forallb_forall in H. specialize (H x I). cbn beta in H. rewrite forallb_forall in H. now apply H.
Qed.
Definition word_act (w : string) : act := match look w keywords with Some k => A_tok k | None => A_string end.
Lemma lit_other : forall c l d s, word_char c = true -> word_char d = false -> lit (String d l) (String c s) = None.
Proof.
  intros c l d s C D. unfold lit. cbn [prefix]. destruct (ascii_dec d c); [congruence|reflexivity].
Qed.
Lemma pick_word : forall w r bol, w <> "" -> Forall (fun c => word_char c = true) (list_ascii_of_string w) -> stops word_char r ->
  pick (rules INITIAL bol) (w ++ r) None = Some (String.length w, word_act w).
Proof.
  intros w r bol N W R. unfold rules.
  destruct (pick_keywords w r keywords ((some word_char, A_string) :: (comment, A_skip) :: fixed operators ++
      [(lit (String nl ""), A_line); (some blank, A_skip); (delimiter "%{" bol, A_begin PASSTHRU);
       (lit (String quote ""), A_begin STR)]) R keywords_words) as [_ H].
  destruct (H None I) as [b' [B E]]. clear H. cbn [app] in E |- *. rewrite E. clear E. rewrite pick_cons.
  assert (Q : some word_char (w ++ r)%string = Some (String.length w)).
  { unfold some. rewrite (span_app _ _ _ W R). destruct w; [congruence|reflexivity]. }
  rewrite Q. clear Q.
  destruct w as [|c w]; [congruence|].
  cbn [list_ascii_of_string] in W. inversion W as [|? ? C _]; subst.
  assert (E : forall b, pick ((comment, A_skip) :: fixed operators ++
      [(lit (String nl ""), A_line); (some blank, A_skip); (delimiter "%{" bol, A_begin PASSTHRU);
       (lit (String quote ""), A_begin STR)]) (String c w ++ r) b = b).
  { intro b. change (String c w ++ r)%string with (String c (w ++ r)).
    match goal with |- pick ?rs ?s b = b => transitivity (pick (rs ++ []) s b); [now rewrite app_nil_r|]; refine (eq_trans (pick_skip rs [] s b _) eq_refl) end.
    intros p a J. cbn [In app fixed map operators fst snd] in J.
    repeat (destruct J as [J|J]; [injection J as <- <-; try (apply lit_other; [exact C|reflexivity])|]);
      try (elim J; fail).
    - unfold comment. destruct (Ascii.eqb_spec c "#"); [subst; discriminate|reflexivity].
    - unfold some. cbn [span]. unfold blank. destruct (Ascii.eqb_spec c " "); [subst; discriminate|].
      destruct (Ascii.eqb_spec c tab); [subst; discriminate|]. reflexivity.
    - unfold delimiter. cbn [prefix]. destruct (ascii_dec "%" c); [subst; discriminate|]. now rewrite andb_false_r. }
  rewrite E. unfold word_act. destruct (look (String c w) keywords) as [k|].
  - now rewrite Nat.ltb_irrefl.
  - destruct b' as [[n a]|]; [|reflexivity].
    replace (n <? String.length (String c w))%nat with true by (symmetry; apply Nat.ltb_lt; exact B). reflexivity.
Qed.
