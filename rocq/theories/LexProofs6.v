From Coq Require Import String Ascii List NArith Bool Arith Lia.
From Verif Require Import Base TokData CmavoData TokModel LujvoSpec MorfModel MorfSpec MorfProofs7 LexModel LexSpec LexProofs LexProofs2 LexProofs4 LexProofs5.
Import ListNotations.
Open Scope N_scope.
Open Scope list_scope.

(* ---- places ---- *)
(* a token of the word w at l, c *)
Definition in_word (w : list ascii) (l c : N) (x : ndata * N * N) : Prop :=
  exists a s b, w = a ++ s ++ b /\ token_text (fst (fst x)) s /\ snd (fst x) = l /\ snd x = c + N.of_nat (length a).
Definition quote_at (q : quoting) (f : string) (l c : N) : Prop :=
  match q with Plain => False | Opened f' l' c' | Quoted f' _ l' c' _ => f' = f /\ l' = l /\ c' = c end.
Definition of_quote (q : quoting) (x : ndata * N * N) : Prop :=
  exists f d t, fst (fst x) = N_ZOI f d t /\ quote_at q f (snd (fst x)) (snd x).
Lemma string_text s : s = list_ascii_of_string (string_of_list_ascii s).
Proof. symmetry. apply list_ascii_of_string_of_list_ascii. Qed.
Lemma cmavo_in ps c ts b l : cmavo_tokens ps c ts b -> forall pre rest c0, c = c0 + N.of_nat (length pre) ->
  Forall (in_word (pre ++ concat ps ++ rest) l c0) (at_line l ts).
Proof.
  induction 1 as [|p ps c d b ts b' H K IH]; intros pre rest c0 E; [constructor|]. unfold at_line. rewrite map_app. apply Forall_app. split.
  - assert (G : forall d0, token_text d0 p -> in_word (pre ++ concat (p :: ps) ++ rest) l c0 (d0, l, c)).
    { intros d0 T. exists pre, p, (concat ps ++ rest). cbn [fst snd concat]. rewrite <- app_assoc. auto. }
    destruct H; cbn [map fst snd]; repeat constructor; apply G; cbn; [assumption|apply string_text].
  - specialize (IH (pre ++ p) rest c0). cbn [concat]. rewrite <- !app_assoc in IH |- *. apply IH. rewrite app_length. lia.
Qed.
Lemma split_whole w ss ps : split_at w ss ps -> begins_comma w = false -> w = concat ps.
Proof. intros (lead & L & -> & _) H. destruct lead as [|c lead]; [reflexivity|]. cbn in L, H. rewrite H in L. discriminate. Qed.
Lemma in_word_part pre m rest l c x : in_word m l (c + N.of_nat (length pre)) x -> in_word (pre ++ m ++ rest) l c x.
Proof.
  intros (a & s & b & -> & T & L & C). exists (pre ++ a), s, (b ++ rest). rewrite <- !app_assoc. repeat split; auto. rewrite C, app_length. lia.
Qed.
Lemma begins_app a b : a <> [] -> begins_comma (a ++ b) = begins_comma a.
Proof. destruct a; [congruence|reflexivity]. Qed.
(* the quotation that is open afterwards was open before, or was opened by this word *)
Definition quote_from (q : quoting) (w : list ascii) (l c : N) (q' : quoting) : Prop :=
  forall f l0 c0, quote_at q' f l0 c0 -> quote_at q f l0 c0 \/ exists a b, w = a ++ list_ascii_of_string f ++ b /\ l0 = l /\ c0 = c + N.of_nat (length a).
Definition tok_from (q : quoting) (w : list ascii) (l c : N) (x : ndata * N * N) : Prop := in_word w l c x \/ of_quote q x.
Lemma tok_later q w l c q1 pre m rest x : w = pre ++ m ++ rest -> (forall f l0 c0, quote_at q1 f l0 c0 -> quote_at q f l0 c0 \/ exists a b, w = a ++ list_ascii_of_string f ++ b /\ l0 = l /\ c0 = c + N.of_nat (length a)) ->
  tok_from q1 m l (c + N.of_nat (length pre)) x -> tok_from q w l c x.
Proof.
  intros E Q [H|(f & d & t & H1 & H2)].
  - left. rewrite E. now apply in_word_part.
  - destruct (Q _ _ _ H2) as [Q1|(a & b & E' & E1 & E2)]; [right; exists f, d, t; auto|]. left. exists a, (list_ascii_of_string f), b. rewrite H1. cbn. auto.
Qed.
Lemma quote_later q w l c q1 pre m rest q2 : w = pre ++ m ++ rest -> quote_from q1 m l (c + N.of_nat (length pre)) q2 ->
  quote_from q w l c q1 -> quote_from q w l c q2.
Proof.
  intros E H Q f l0 c0 K. destruct (H _ _ _ K) as [H'|(a & b & -> & -> & ->)]; [now apply Q|]. right. exists (pre ++ a), (b ++ rest). rewrite E, <- !app_assoc. repeat split; auto. rewrite app_length. lia.
Qed.
Lemma says_places cult q w l c ts b q' : says cult q w l c ts b q' -> begins_comma w = false ->
  Forall (tok_from q w l c) ts /\ quote_from q w l c q'.
Proof.
  assert (Q0 : forall w l c, quote_from Plain w l c Plain) by (intros ? ? ? ? ? ? []).
  intro S. induction S; intro B.
  - split; [constructor|]. intros f' l0 c0 (<- & <- & <-). right. exists [], []. rewrite app_nil_r. cbn. repeat split. lia.
  - split; [constructor|]. intros f' l' c' (<- & <- & <-). left. cbn. auto.
  - split; [|intros ? ? ? []]. constructor; [|constructor]. right. exists f, (string_of_list_ascii d), (spoken ws). cbn. auto.
  - split; [constructor|]. intros f' l' c' (<- & <- & <-). left. cbn. auto.
  - split; [constructor|apply Q0].
  - split; [|apply Q0]. pose proof (split_whole _ _ _ H2 B) as ->. pose proof (cmavo_in _ _ _ _ l H4 [] [] c ltac:(cbn; lia)) as K. cbn [app] in K. rewrite app_nil_r in K.
    eapply Forall_impl; [|exact K]. now left.
  - split; [|apply Q0]. pose proof (split_whole _ _ _ H2 B) as ->. rewrite concat_app. cbn [concat]. unfold at_line. rewrite map_app. apply Forall_app. split.
    + pose proof (cmavo_in _ _ _ _ l H3 [] (lastp ++ []) c ltac:(cbn; lia)) as K. cbn [app] in K. eapply Forall_impl; [|exact K]. now left.
    + constructor; [|constructor]. left. exists (concat front), lastp, []. cbn [fst snd token_text]. repeat split; auto. apply string_text.
  - split; [|apply Q0]. constructor; [|constructor]. left. exists [], w, []. rewrite app_nil_r. cbn. repeat split; [apply string_text|lia].
  - pose proof H2 as (E & (c1 & r1 & M & C1) & (c2 & r2 & R & C2) & _). rewrite E, begins_app in B by assumption.
    destruct (IHS1 B) as [A1 Q1]. destruct IHS2 as [A2 Q2]; [rewrite M; exact C1|]. destruct IHS3 as [A3 Q3]; [rewrite R; exact C2|].
    assert (E1 : w = [] ++ pre ++ m ++ rest) by exact E. assert (E3 : w = (pre ++ m) ++ rest ++ []) by (rewrite app_nil_r, <- app_assoc; exact E).
    rewrite <- (N.add_0_r c) in A1, Q1. change 0 with (N.of_nat (@length ascii [])) in A1, Q1.
    pose proof (quote_later _ _ _ _ _ _ _ _ _ E1 Q1 (Q0 _ _ _)) as Q1'. pose proof (quote_later _ _ _ _ _ _ _ _ _ E Q2 Q1') as Q2'.
    split; [|exact (quote_later _ _ _ _ _ _ _ _ _ E3 Q3 Q2')].
    repeat (apply Forall_app; split).
    + eapply Forall_impl; [|exact A1]. intros x Hx. eapply tok_later; [exact E1|apply Q0|exact Hx].
    + eapply Forall_impl; [|exact A2]. intros x Hx. eapply tok_later; [exact E|apply Q1'|exact Hx].
    + eapply Forall_impl; [|exact A3]. intros x Hx. eapply tok_later; [exact E3|apply Q2'|exact Hx].
  - pose proof H2 as (E & (c1 & r1 & M & C1) & (c2 & r2 & R & C2) & _). cbn [app] in E. rewrite E, begins_app in B by (rewrite M; discriminate).
    destruct (IHS1 B) as [A1 Q1]. destruct IHS2 as [A2 Q2]; [rewrite R; exact C2|].
    assert (E1 : w = [] ++ m ++ rest) by exact E. assert (E3 : w = m ++ rest ++ []) by (rewrite app_nil_r; exact E).
    rewrite <- (N.add_0_r c) in A1, Q1. change 0 with (N.of_nat (@length ascii [])) in A1, Q1.
    pose proof (quote_later _ _ _ _ _ _ _ _ _ E1 Q1 (Q0 _ _ _)) as Q1'.
    split; [|exact (quote_later _ _ _ _ _ _ _ _ _ E3 Q2 Q1')].
    apply Forall_app; split.
    + eapply Forall_impl; [|exact A1]. intros x Hx. eapply tok_later; [exact E1|apply Q0|exact Hx].
    + eapply Forall_impl; [|exact A2]. intros x Hx. eapply tok_later; [exact E3|apply Q1'|exact Hx].
Qed.

Definition placed_out (t : list ascii) (x : out) : Prop :=
  match x with Tk d l c => exists s, token_text d s /\ starts_at t l c s | EndLine => True end.
Definition placed_quote (t : list ascii) (q : quoting) : Prop := forall f l c, quote_at q f l c -> starts_at t l c (list_ascii_of_string f).
Definition placed_call (t : list ascii) (x : call) : Prop :=
  match x with Call w l c => starts_at t l c w /\ Forall (fun x => x <> nl) w /\ begins_comma w = false | Line => True end.
Lemma past_line a : forall l c, Forall (fun x => x <> nl) a -> past l c a = (l, c + N.of_nat (length a)).
Proof.
  induction a as [|x a IH]; intros l c H; cbn [past length]; [f_equal; lia|]. inversion H; subst. destruct (Ascii.eqb_spec x nl); [contradiction|].
  rewrite IH by assumption. f_equal. lia.
Qed.
Lemma inner_start t l c w a s b : starts_at t l c w -> Forall (fun x => x <> nl) w -> w = a ++ s ++ b -> starts_at t l (c + N.of_nat (length a)) s.
Proof.
  intros (x & z & -> & P) N ->. exists (x ++ a), (b ++ z). rewrite <- !app_assoc. split; [reflexivity|]. rewrite past_app, P.
  apply Forall_app in N as [N _]. now apply past_line.
Qed.
Lemma all_places cult t q cs o b q' : says_all cult q cs o b q' -> placed_quote t q -> Forall (placed_call t) cs -> Forall (placed_out t) o.
Proof.
  induction 1 as [|q cs o b q' S IH|q w l c cs ts b q1 o b' q' S _ IH]; intros Q C; [constructor|inversion C; subst; constructor; [exact I|auto]|].
  inversion C as [|? ? C0 C4]; subst. cbn [placed_call] in C0. destruct C0 as (C1 & C2 & C3). destruct (says_places _ _ _ _ _ _ _ _ S C3) as [A F]. apply Forall_app. split.
  - unfold outs. rewrite Forall_map. eapply Forall_impl; [|exact A]. intros [[d l'] c'] [(a & s & z & E & T & L & K)|(f & dd & x & E & K)]; cbn [fst snd] in *.
    + subst l' c'. exists s. split; [exact T|]. eapply inner_start; eauto.
    + subst d. exists (list_ascii_of_string f). split; [reflexivity|]. now apply Q.
  - apply IH; [|exact C4]. intros f l0 c0 K. destruct (F _ _ _ K) as [K'|(a & z & E & -> & ->)]; [now apply Q|]. eapply inner_start; eauto.
Qed.
Lemma item_past is' : forall l c x, word_char x -> past l c (item_text (Ch x) ++ is') = past l (c + 1) is'.
Proof. intros l c x (S & _ & _). cbn. destruct (Ascii.eqb_spec x nl) as [->|]; [discriminate|reflexivity]. Qed.
Lemma reads_placed l c is e : reads l c is e -> forall pre, past 1 1 pre = (l, c) -> no_number e -> no_comma_first e ->
  Forall (placed_call (pre ++ written is)) (calls None e).
Proof.
  unfold no_number, no_comma_first. induction 1 as [l c|l c a is e l' c' P R IH|l c x is e S Nx R IH|l c is e R IH|l c x w is e Nu R IH|l c w is e Nw Ww Max R IH]; intros pre Q Nn Nc; cbn [calls].
  - constructor.
  - unfold written. cbn [map concat]. rewrite app_assoc. inversion Nn; inversion Nc; subst. apply IH; auto. now rewrite past_app, Q.
  - unfold written. cbn [map concat]. rewrite app_assoc. apply IH; auto. rewrite past_app, Q. cbn. destruct (Ascii.eqb_spec x nl); [contradiction|reflexivity].
  - unfold written. cbn [map concat]. rewrite app_assoc. inversion Nn; inversion Nc; subst. constructor; [exact I|]. apply IH; auto. now rewrite past_app, Q.
  - inversion Nn; contradiction.
  - rewrite written_app, written_chars, app_assoc. inversion Nn; inversion Nc; subst.
    assert (W : Forall (fun x => x <> nl) w) by (eapply Forall_impl; [|exact Ww]; intros x (S & _) ->; discriminate).
    constructor; [|apply IH; auto; rewrite past_app, Q; now apply past_line]. cbn [fst snd placed_call]. repeat split; auto. exists pre, (written is). now rewrite app_assoc.
Qed.
Lemma counted_in o d l c n : In (d, l, c, n) (snd (counted o)) -> In (Tk d l c) o.
Proof.
  induction o as [|[d' l' c'|] o IH]; cbn [counted]; [intros []|destruct (counted o) as [m ts]; cbn [snd]; intros [E|E]; [injection E as -> -> -> ->; now left|right; auto]|].
  destruct (counted o) as [m ts]; cbn [snd]. intro E. right. auto.
Qed.
Lemma token_places cult is k st' e : Forall proper is -> no_nul (written is) -> (length (written is) < k)%nat ->
  reads 1 1 is e -> no_number e -> no_comma_first e -> parse_file k cult (written is) lexer0 = Ok st' ->
  forall d l c b g kk u n, In (Node d l c b g kk u, n) (lx_toks st') -> exists s, token_text d s /\ starts_at (written is) l c s.
Proof.
  intros P Z L R N1 N2 E d l c b g kk u n In0.
  pose proof E as E0. rewrite (parse_reads cult is e lexer0 k P R L) in E0. change (r_lex (reader0 lexer0)) with lexer0 in E0.
  destruct (run cult (calls None e) lexer0) as [st1| | | |] eqn:E1; try discriminate. cbn [obind] in E0. injection E0 as <-.
  destruct (run_says cult _ Plain lexer0 st1 (reads_whole _ _ _ _ R Z None) (conj eq_refl eq_refl) E1) as (o & b' & q & S & H & F & B).
  cbn [lx_toks lx_eols0 lexer0] in F. rewrite feed_counted, app_nil_r in F. injection F as F1 _.
  assert (T : lx_toks (ended st1) = lx_toks st1) by (unfold ended; destruct (zoi_data st1); auto). rewrite T, <- F1 in In0.
  apply in_rev, in_map_iff in In0 as ([[[d0 l0] c0] n0] & E2 & In0). cbn in E2. injection E2 as -> -> -> <- <- <- <- ->. apply counted_in in In0.
  pose proof (all_places cult (written is) Plain _ _ _ _ S ltac:(intros ? ? ? []) (reads_placed _ _ _ _ R [] eq_refl N1 N2)) as A.
  rewrite Forall_forall in A. exact (A _ In0).
Qed.
