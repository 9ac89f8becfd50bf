(* Texts with comments. *)
From Coq Require Import String Ascii List NArith ZArith Bool Arith Lia.
From Verif Require Import Base TokData TokModel MorfModel LexModel LexSpec LexProofs.
Import ListNotations.
Open Scope N_scope.
Open Scope list_scope.

Lemma inside_app a b : inside a -> inside b -> inside (a ++ b).
Proof.
  intros H Hb. induction H as [|c a P1 P2 _ IH|a1 a2 H1 _ _ IH2]; cbn [app]; [exact Hb|now constructor|].
  rewrite <- app_assoc. cbn [app]. now constructor.
Qed.
(* what follows ( is closed somewhere or nowhere *)
Lemma closed_or_not t : (exists a t', inside a /\ t = a ++ ")"%char :: t') \/ open_end t.
Proof.
  assert (forall n t, (length t <= n)%nat -> (exists a t', inside a /\ t = a ++ ")"%char :: t') \/ open_end t) as G; [|exact (G (length t) t (le_n _))].
  clear t. induction n as [|n IH]; intros t L; destruct t as [|c t]; try solve [right; apply oe_here; constructor]; cbn [length] in L; [lia|].
  destruct (ascii_dec c ")") as [->|N1]; [left; exists [], t; split; [constructor|reflexivity]|].
  destruct (ascii_dec c "(") as [->|N2].
  - destruct (IH t ltac:(lia)) as [(a & t' & Ha & ->)|O].
    + destruct (IH t') as [(a2 & t2 & Ha2 & ->)|O]; [rewrite app_length in L; cbn [length] in L; lia| |].
      * left. exists ("("%char :: a ++ ")"%char :: a2), t2. split; [now constructor|]. cbn [app]. now rewrite <- app_assoc.
      * right. inversion O as [x Hx|x y Hx Hy]; subst.
        -- constructor. now constructor.
        -- replace ("("%char :: a ++ ")"%char :: x ++ "("%char :: y) with (("("%char :: a ++ ")"%char :: x) ++ "("%char :: y) by (cbn [app]; now rewrite <- app_assoc).
           apply oe_deeper; [now constructor|exact Hy].
    + right. apply (oe_deeper [] t); [constructor|exact O].
  - destruct (IH t ltac:(lia)) as [(a & t' & Ha & ->)|O].
    + left. exists (c :: a), t'. split; [now constructor|reflexivity].
    + right. inversion O as [x Hx|x y Hx Hy]; subst.
      * constructor. now constructor.
      * apply (oe_deeper (c :: x) y); [now constructor|exact Hy].
Qed.
Lemma text_cases t : (exists is, Forall proper is /\ t = written is)
  \/ exists is a, Forall proper is /\ open_end a /\ t = written is ++ "("%char :: a.
Proof.
  assert (forall n t, (length t <= n)%nat -> (exists is, Forall proper is /\ t = written is)
    \/ exists is a, Forall proper is /\ open_end a /\ t = written is ++ "("%char :: a) as G; [|exact (G (length t) t (le_n _))].
  clear t. induction n as [|n IH]; intros t L; destruct t as [|c t]; try solve [left; exists []; split; [constructor|reflexivity]]; cbn [length] in L; [lia|].
  destruct (ascii_dec c "(") as [->|N2].
  - destruct (closed_or_not t) as [(a & t' & Ha & ->)|O].
    + destruct (IH t') as [(is & P & ->)|(is & b & P & Ob & ->)]; [rewrite app_length in L; cbn [length] in L; lia| |].
      * left. exists (Note a :: is). split; [now constructor|]. unfold written. cbn [map concat item_text app]. now rewrite <- app_assoc.
      * right. exists (Note a :: is), b. split; [now constructor|]. split; [exact Ob|]. unfold written. cbn [map concat item_text app]. rewrite <- !app_assoc. reflexivity.
    + right. exists [], t. split; [constructor|]. split; [exact O|reflexivity].
  - destruct (IH t ltac:(lia)) as [(is & P & ->)|(is & b & P & Ob & ->)].
    + left. exists (Ch c :: is). split; [now constructor|reflexivity].
    + right. exists (Ch c :: is), b. split; [now constructor|]. split; [exact Ob|reflexivity].
Qed.

(* ---- every text can be read ---- *)
Lemma reads_total is : Forall proper is -> forall l c, exists e, reads l c is e.
Proof.
  assert (forall n is, (length is <= n)%nat -> Forall proper is -> forall l c, exists e, reads l c is e) as G; [|exact (G (length is) is (le_n _))].
  clear is. induction n as [|n IH]; intros is L P l c; destruct is as [|i is]; try solve [exists []; constructor]; cbn [length] in L; [lia|].
  inversion P as [|? ? Pi Ps]; subst. destruct i as [x|a].
  - destruct (ascii_dec x nl) as [->|Nx].
    { destruct (IH is ltac:(lia) Ps (l + 1) 1) as [e E]. exists (Eol :: e). now constructor. }
    destruct (space x) eqn:Sx.
    { destruct (IH is ltac:(lia) Ps l (c + 1)) as [e E]. exists e. now constructor. }
    destruct (numeral x) as [w|] eqn:Nw.
    { destruct (IH is ltac:(lia) Ps l (c + 1)) as [e E]. exists (Number w l c :: e). now constructor. }
    assert (S : exists w is', is = map Ch w ++ is' /\ Forall word_char w /\ (forall i is'', is' = i :: is'' -> ~ word_item i)).
    { clear -P. assert (Pr : Forall proper is) by now inversion P. clear P. induction is as [|i is IHi]; [exists [], []; repeat split; [constructor|discriminate]|].
      inversion Pr as [|? ? Pi Ps]; subst. destruct i as [z|a].
      - assert (D : word_char z \/ ~ word_char z).
        { unfold word_char. destruct (space z); [right; intuition discriminate|]. destruct (numeral z); [right; intuition discriminate|]. left. cbn in Pi. auto. }
        destruct D as [D|D].
        + destruct (IHi Ps) as (w & is' & -> & W & B). exists (z :: w), is'. repeat split; [constructor; assumption|exact B].
        + exists [], (Ch z :: is). repeat split; [constructor|]. intros i is'' E. injection E as <- <-. exact D.
      - exists [], (Note a :: is). repeat split; [constructor|]. intros i is'' E. injection E as <- <-. exact (fun x => x). }
    destruct S as (w & is' & -> & W & B). rewrite app_length, map_length in L. apply Forall_app in Ps. destruct Ps as [_ Ps].
    destruct (IH is' ltac:(lia) Ps l (c + N.of_nat (length (x :: w)))) as [e E]. exists (Word (x :: w) l c :: e).
    change (Ch x :: map Ch w ++ is') with (map Ch (x :: w) ++ is'). constructor; [discriminate| |exact B|exact E].
    constructor; [|exact W]. cbn in Pi. repeat split; assumption.
  - destruct (past l c (item_text (Note a))) as [l' c'] eqn:E. destruct (IH is ltac:(lia) Ps l' c') as [e He]. exists (Gap :: e). now apply (rd_note l c a is e l' c').
Qed.

(* ---- parse_file ---- *)
Definition ended (st : lexer) : lexer := match zoi_data st with Some _ => set_bad st | None => st end.
Lemma parse_reads cult is e st k : Forall proper is -> reads 1 1 is e -> (length (written is) < k)%nat ->
  parse_file k cult (written is) st = do st <- run cult (calls None e) (r_lex (reader0 st)); Ok (ended st).
Proof.
  intros P R L. unfold parse_file. replace k with (length (written is) + S (k - length (written is) - 1))%nat by lia.
  set (s1 := r_lex (reader0 st)). replace (reader0 st) with (Reader s1 [] 1 (1 - 1) 1 0 true 0) by reflexivity.
  pose proof (run_calls cult 1 1 is e R P s1 [] 1 0 true (k - length (written is) - 1)%nat eq_refl ltac:(lia)) as H. cbv iota in H. rewrite <- H.
  destruct (read_loop _ cult (written is) _); reflexivity.
Qed.

(* ---- comments that do not end ---- *)
Lemma eof_forever cult fuel : forall r, 0 < depth r -> read_loop fuel cult [] r = NoFuel.
Proof.
  induction fuel as [|fuel IH]; intros r D; [reflexivity|]. rewrite loop_S. unfold turn. cbn [next_col depth].
  destruct (N.ltb_spec 0 (depth r)); [|lia]. cbn [obind tl]. apply IH. exact D.
Qed.
Fixpoint never (d : N) (t : list ascii) : bool :=
  match t with
  | [] => true
  | c :: t => if Ascii.eqb c ")" then (if d =? 1 then false else never (d - 1) t) else if Ascii.eqb c "(" then never (d + 1) t else never d t
  end.
Lemma never_inside a : inside a -> forall d t, 0 < d -> never d (a ++ t) = never d t.
Proof.
  induction 1 as [|c a P1 P2 _ IH|a1 a2 _ IH1 _ IH2]; intros d t D; cbn [app never]; [reflexivity| |].
  - destruct (Ascii.eqb_spec c ")"); [contradiction|]. destruct (Ascii.eqb_spec c "("); [contradiction|]. now apply IH.
  - change (Ascii.eqb "(" ")") with false. change (Ascii.eqb "(" "(") with true. cbv iota. rewrite <- app_assoc. cbn [app]. rewrite IH1 by lia. cbn [never].
    change (Ascii.eqb ")" ")") with true. cbv iota. destruct (N.eqb_spec (d + 1) 1); [lia|]. replace (d + 1 - 1) with d by lia. now apply IH2.
Qed.
Lemma open_never a : open_end a -> forall d, 0 < d -> never d a = true.
Proof.
  induction 1 as [a H|a b Ha _ IH]; intros d D.
  - rewrite <- (app_nil_r a). now rewrite never_inside.
  - rewrite never_inside by assumption. cbn [never]. change (Ascii.eqb "(" ")") with false. change (Ascii.eqb "(" "(") with true. cbv iota. apply IH. lia.
Qed.
Lemma comment_forever cult fuel : forall t r, 0 < depth r -> never (depth r) t = true -> read_loop fuel cult t r = NoFuel.
Proof.
  induction fuel as [|fuel IH]; intros t r D H; [reflexivity|]. destruct t as [|c t]; [now apply eof_forever|].
  rewrite loop_S. unfold turn. cbn [next_col depth tl]. destruct (N.ltb_spec 0 (depth r)); [|lia]. cbn [never] in H.
  destruct (Ascii.eqb c ")").
  - destruct (N.eqb_spec (depth r) 1); [discriminate|]. cbn [obind]. apply IH; cbn [with_depth depth]; [lia|exact H].
  - destruct (Ascii.eqb c "("); [cbn [obind]; apply IH; cbn [with_depth depth]; [lia|exact H]|].
    destruct (Ascii.eqb c newline); cbn [obind]; apply IH; cbn [next_line depth]; assumption.
Qed.
Lemma unclosed cult fuel k : forall pre a r, open_end a -> (exists r', read_loop k cult pre r = Ok r') ->
  read_loop fuel cult (pre ++ "("%char :: a) r = NoFuel.
Proof.
  revert fuel. induction k as [|k IH]; intros fuel pre a r O [r' E]; [discriminate|].
  destruct fuel as [|fuel]; [reflexivity|]. rewrite loop_S in E |- *. destruct pre as [|c pre].
  - cbn [app tl] in *. destruct (N.lt_ge_cases 0 (depth r)) as [D|D].
    + exfalso. unfold turn in E. cbn [next_col depth] in E. destruct (N.ltb_spec 0 (depth r)); [|lia]. cbn [obind] in E.
      rewrite eof_forever in E; [discriminate|exact D].
    + assert (D0 : depth r = 0) by lia. unfold turn in E |- *. cbv zeta in E |- *.
      assert (depth (next_col r) = 0) as Dn by exact D0. rewrite Dn in E |- *. cbn [N.ltb N.compare] in E |- *.
      change (digit_value "(") with (@None nat). change (Ascii.eqb "(" ":") with false. change (separator "(") with true. cbv iota.
      destruct (close_token cult (next_col r)) as [r1| | | |] eqn:C; try discriminate. cbn [obind].
      change (Ascii.eqb "(" newline) with false. change (Ascii.eqb "(" "(") with true. cbv iota.
      apply comment_forever; cbn [with_depth depth]; [lia|]. apply open_never; [exact O|lia].
  - cbn [app tl] in *. destruct (turn cult (Some c) r) as [[r1|r1]| | | |] eqn:T; cbn [obind] in E |- *; try discriminate.
    + apply IH; [exact O|eauto].
    + exfalso. clear -T. unfold turn in T. cbv zeta in T.
      repeat match type of T with
      | (if ?x then _ else _) = _ => destruct x; try discriminate T
      | match ?x with _ => _ end = _ => destruct x; try discriminate T
      | obind ?x _ = _ => destruct x; cbn [obind] in T; try discriminate T
      end.
Qed.
(* and it never ends well *)
Definition lev1 (d : N) (c : ascii) : N :=
  if d =? 0 then (if Ascii.eqb c "(" then 1 else 0)
  else if Ascii.eqb c ")" then d - 1 else if Ascii.eqb c "(" then d + 1 else d.
Lemma close_depth cult r r' : close_token cult r = Ok r' -> depth r' = depth r.
Proof. intro E. now apply close_twice in E as (_ & -> & _). Qed.
Lemma turn_depth cult c r r' : turn cult (Some c) r = Ok (inl r') -> depth r' = lev1 (depth r) c.
Proof.
  unfold turn, lev1. cbn [next_col depth]. destruct (N.ltb_spec 0 (depth r)) as [D|D].
  - destruct (N.eqb_spec (depth r) 0); [lia|]. destruct (Ascii.eqb c ")"); [intro E; injection E as <-; reflexivity|].
    destruct (Ascii.eqb c "("); [intro E; injection E as <-; reflexivity|]. destruct (Ascii.eqb c newline); intro E; injection E as <-; reflexivity.
  - assert (D0 : depth r = 0) by lia. rewrite D0. cbn [N.eqb].
    assert (A : forall w, (do r1 <- abbreviation cult w (next_col r); Ok (inl r1 : reader + reader)) = Ok (inl r') -> depth r' = 0).
    { intros w E. unfold abbreviation in E. destruct (close_token cult (next_col r)) as [r1| | | |] eqn:C; try discriminate. cbn [obind] in E.
      apply close_depth in C. cbn [next_col depth] in C. destruct (word cult _ _ _ _); try discriminate. cbn [obind] in E. injection E as <-.
      cbn [with_lex depth]. unfold set_start. destruct (new_tok r1); cbn [depth]; congruence. }
    destruct (digit_value c) eqn:Dg.
    { intro E. apply A in E. destruct (Ascii.eqb_spec c "("); [subst c; discriminate|exact E]. }
    destruct (Ascii.eqb_spec c ":") as [->|_]; [intro E; now apply A in E|].
    destruct (separator c) eqn:Sp.
    + destruct (close_token cult (next_col r)) as [r1| | | |] eqn:C; try discriminate. cbn [obind]. apply close_depth in C. cbn [next_col depth] in C.
      destruct (Ascii.eqb c "("); intro E; injection E as <-; [reflexivity|]. destruct (Ascii.eqb c newline); cbn [next_line with_lex depth]; congruence.
    + destruct (Ascii.eqb_spec c "("); [subst c; discriminate|]. unfold push. destruct (_ <=? _); [discriminate|]. cbn [obind]. intro E. injection E as <-.
      cbn [depth]. unfold set_start. destruct (new_tok (next_col r)); cbn [next_col depth]; exact D0.
Qed.
Lemma ok_level cult fuel : forall t r r', read_loop fuel cult t r = Ok r' -> fold_left lev1 t (depth r) = 0.
Proof.
  induction fuel as [|fuel IH]; intros t r r' E; [discriminate|]. destruct t as [|c t].
  - destruct (N.lt_ge_cases 0 (depth r)) as [D|D]; [rewrite eof_forever in E by exact D; discriminate|]. cbn [fold_left]. lia.
  - rewrite loop_S in E. cbn [tl] in E. destruct (turn cult (Some c) r) as [[r1|r1]| | | |] eqn:T; cbn [obind] in E; try discriminate.
    + cbn [fold_left]. rewrite <- (turn_depth cult c r r1 T). eapply IH. exact E.
    + exfalso. clear -T. unfold turn in T. cbv zeta in T.
      repeat match type of T with
      | (if ?x then _ else _) = _ => destruct x; try discriminate T
      | match ?x with _ => _ end = _ => destruct x; try discriminate T
      | obind ?x _ = _ => destruct x; cbn [obind] in T; try discriminate T
      end.
Qed.
Lemma lev_inside a : inside a -> forall d, 0 < d -> fold_left lev1 a d = d.
Proof.
  induction 1 as [|c a P1 P2 _ IH|a1 a2 _ IH1 _ IH2]; intros d D; cbn [fold_left]; [reflexivity| |].
  - unfold lev1 at 2. destruct (N.eqb_spec d 0); [lia|]. destruct (Ascii.eqb_spec c ")"); [contradiction|]. destruct (Ascii.eqb_spec c "("); [contradiction|]. now apply IH.
  - rewrite fold_left_app. cbn [fold_left].
    assert (lev1 d "(" = d + 1) as -> by (unfold lev1; destruct (N.eqb_spec d 0); [lia|reflexivity]). rewrite IH1 by lia.
    assert (lev1 (d + 1) ")" = d) as -> by (unfold lev1; destruct (N.eqb_spec (d + 1) 0); [lia|]; cbn; lia). now apply IH2.
Qed.
Lemma lev_open a : open_end a -> forall d, 0 < d -> 0 < fold_left lev1 a d.
Proof.
  induction 1 as [a H|a b Ha _ IH]; intros d D; [now rewrite lev_inside|].
  rewrite fold_left_app, (lev_inside a Ha d D). cbn [fold_left]. apply IH. unfold lev1. destruct (N.eqb_spec d 0); [lia|]. cbn. lia.
Qed.
Lemma lev_written is : Forall proper is -> fold_left lev1 (written is) 0 = 0.
Proof.
  induction 1 as [|i is P _ IH]; [reflexivity|]. change (written (i :: is)) with (item_text i ++ written is). rewrite fold_left_app.
  destruct i as [c|a]; cbn [item_text proper] in *.
  - cbn [fold_left]. assert (lev1 0 c = 0) as ->; [|exact IH]. unfold lev1. cbn. destruct (Ascii.eqb_spec c "("); [contradiction|reflexivity].
  - cbn [fold_left]. rewrite fold_left_app. change (lev1 0 "(") with 1. rewrite (lev_inside a P 1 ltac:(lia)). exact IH.
Qed.
Lemma unclosed_not_ok cult fuel is a st r : Forall proper is -> open_end a -> parse_file fuel cult (written is ++ "("%char :: a) st <> Ok r.
Proof.
  intros P O E. unfold parse_file in E.
  destruct (read_loop fuel cult (written is ++ "("%char :: a) (reader0 st)) as [r1| | | |] eqn:R; try discriminate.
  apply ok_level in R. change (depth (reader0 st)) with 0 in R. rewrite fold_left_app, lev_written in R by exact P. cbn [fold_left] in R.
  change (lev1 0 "(") with 1 in R. pose proof (lev_open a O 1 ltac:(lia)). lia.
Qed.
Lemma unclosed_parse cult fuel k pre a st st' : open_end a -> parse_file k cult pre st = Ok st' ->
  parse_file fuel cult (pre ++ "("%char :: a) st = NoFuel.
Proof.
  intros O E. unfold parse_file in *. destruct (read_loop k cult pre (reader0 st)) as [r| | | |] eqn:R; try discriminate.
  rewrite (unclosed cult fuel k pre a (reader0 st) O (ex_intro _ r R)). reflexivity.
Qed.
