(* The word glosser: whole texts. *)
From Coq Require Import String Ascii List NArith ZArith Bool Arith Lia.
From Verif Require Import Base LayoutModel LujvoSpec CmModel CmSpec CmProofs CmProofs2 CmProofs3 CmProofs4 CmProofs5 CmProofs6.
Import ListNotations.
Open Scope list_scope.

(* ---- compounds are single words ---- *)
Lemma form_clus k p : form k p -> forallb lojban_letter p = true.
Proof.
  assert (C : forall c, cons c = true -> lojban_letter c = true) by (intros c H; unfold lojban_letter; rewrite H; reflexivity).
  assert (V : forall c, vow c = true -> lojban_letter c = true) by (intros c H; unfold lojban_letter; rewrite H; rewrite orb_true_r; reflexivity).
  intros []; try (apply pair_cons in H; destruct H as (H & ? & _)); try (apply permissible_cons in H1; destruct H1); cbn [forallb];
    repeat match goal with |- context [lojban_letter ?x] => first [rewrite (C x) by assumption | rewrite (V x) by assumption | change (lojban_letter x) with true] end; reflexivity.
Qed.
Lemma joined_letters l : parts l -> forallb lojban_letter (joined l) = true.
Proof.
  induction 1 as [k p F FO|k p l M FO PL IH]; [cbn [joined snd]; apply (form_clus k); exact FO |]. destruct l as [|y l]; [inversion PL |].
  rewrite joined_more, !forallb_app. cbn [snd]. rewrite (form_clus k) by exact FO. rewrite IH. destruct (y_between (k, p) y); reflexivity.
Qed.
Lemma last_vow k p : final k = true -> form k p -> exists r z, p = r ++ [z] /\ r <> [] /\ vow z = true.
Proof.
  intros F FO. destruct FO as [? ? ? ? ? ?|a b v H1 H2|a v u H1 H2 H3|a v u H1 H2 H3|? ? ? ? ? ? ?|? ? ? ? ? ? ?|a v b c u H1 H2 H3 H4|a b v c u H1 H2 H3 H4]; try discriminate F.
  - exists [a; b], v. repeat split; auto. discriminate.
  - exists [a; v], u. repeat split; auto. discriminate.
  - exists [a; v; "'"%char], u. repeat split; auto. discriminate.
  - exists [a; v; b; c], u. repeat split; auto. discriminate.
  - exists [a; b; v; c], u. repeat split; auto. discriminate.
Qed.
Lemma joined_vow l : parts l -> exists r z, joined l = r ++ [z] /\ List.length r >= 2 /\ vow z = true.
Proof.
  intro P. assert (Q : exists r z, joined l = r ++ [z] /\ vow z = true).
  { induction P as [k p F FO|k p l M FO PL IH].
    - destruct (last_vow _ _ F FO) as (r & z & -> & _ & Z). exists r, z. auto.
    - destruct l as [|y l]; [inversion PL |]. destruct IH as (r & z & E & Z). rewrite joined_more, E. exists (snd (k, p) ++ y_if (y_between (k, p) y) ++ r), z. rewrite <- !app_assoc. auto. }
  destruct Q as (r & z & E & Z). exists r, z. repeat split; auto. pose proof (joined_length _ P) as L. rewrite E, app_length in L. cbn [List.length] in L. unfold ge. lia.
Qed.
Lemma clus_more x t : clus t = true -> clus (x ++ t) = true.
Proof. intro H. induction x as [|c x IH]; [exact H |]. cbn [app clus]. destruct (x ++ t) eqn:E; [destruct x; [cbn in E; subst t; discriminate H | discriminate E] |]. rewrite IH. apply orb_true_r. Qed.
Lemma lujvo_brivla l w : parts l -> lujvo l w -> brivla_word w.
Proof.
  intros P L. destruct l as [|[k p] [|y l]]; [inversion P | inversion L |]. destruct (lujvo_sep _ _ _ _ _ P L) as (h & -> & SP).
  inversion P as [|? ? ? M FO PL]; subst. pose proof (joined_letters _ PL) as JL. destruct (joined_vow _ PL) as (r & z & E & RL & Z). pose proof (parts_begun _ PL) as BG.
  set (t := joined (y :: l)) in *.
  assert (HL : forallb lojban_letter h = true) by (inversion SP; subst; try reflexivity; destruct (Ascii.eqb a "r"); reflexivity).
  assert (W : word (p ++ h ++ t)). { split; [destruct FO; discriminate |]. rewrite !forallb_app, HL, JL, (form_clus k) by exact FO. reflexivity. }
  split; [exact W |]. split.
  - assert (PC : exists c p', p = c :: p' /\ cons c = true /\ p' <> []) by (destruct FO; eexists _, _; (split; [reflexivity |]); (split; [first [assumption | apply (pair_cons _ _ H)] | discriminate])).
    destruct PC as (c & p' & -> & C & NP). exists c, (p' ++ h ++ r), z. rewrite E. cbn [app]. rewrite <- !app_assoc. repeat split; auto. destruct p'; [congruence | discriminate].
  - assert (CL : clus (p ++ h ++ t) = true -> cvcy (p ++ h ++ t) \/ ~ cmavo_word (p ++ h ++ t)) by (intro CL; right; intro K; apply cmavo_clus in K; congruence).
    destruct BG as (a & b & t' & ET & A & AB).
    clearbody t. inversion SP as [k' t0 K E1 E2 E3|k' t0 K E1 E2 E3|k' t0 K I E1 E2 E3|k' a' t0 K I E1 E2 E3]; subst k' h; try subst t0.
    + destruct FO; try (exfalso; destruct K as [K|[K|K]]; discriminate K).
      * left. exists a0, v, b0, a, (match r with [] => [] | _ :: r => r end), z. rewrite E in ET. destruct r as [|r0 [|r1 r]]; try (cbn [List.length] in RL; lia). cbn [app] in ET, E. injection ET as -> -> ET. rewrite E. repeat split; auto. discriminate.
      * apply permissible_cons in H1. destruct H1. apply CL. cbn [app]. apply (clus_app [a0; v]); assumption.
      * apply pair_cons in H. destruct H as (? & ? & _). apply CL. cbn [app]. apply (clus_app []); assumption.
    + destruct FO; try (exfalso; destruct K as [K|K]; discriminate K).
      * apply CL. rewrite ET. cbn [app]. apply (clus_app [a0; v]); assumption.
      * apply pair_cons in H. destruct H as (? & ? & _). apply CL. cbn [app]. apply (clus_app []); assumption.
    + destruct I as [I|(x & x' & s & E' & PR)]; [discriminate I |]. apply CL. apply clus_more. cbn [app]. rewrite E'. apply pair_cons in PR. destruct PR as (? & ? & _). apply (clus_app []); assumption.
    + rewrite E3. apply CL. apply clus_more. cbn [app]. rewrite <- E3. rewrite <- E3 in ET. injection ET as -> _. apply (clus_app []); [destruct (Ascii.eqb a "r"); reflexivity | exact A].
Qed.

(* ---- scanning piece by piece ---- *)
Lemma scan_fuel : forall f f' p d s, List.length s < f -> List.length s < f' -> scan f p d s = scan f' p d s.
Proof.
  induction f as [|f IH]; intros f' p d s L L'; [lia |]. destruct f' as [|f']; [lia |]. cbn [scan]. destruct s as [|c s]; [reflexivity |].
  assert (B : exists n a, best (if p then paren_rules else initial_rules) (c :: s) = Some (n, a) /\ 1 <= n) by (destruct p; [apply paren_some | apply initial_some]).
  destruct B as (n & a & -> & N1). destruct a as [k| |]; cbn [fst snd]; rewrite (IH f') by (rewrite skipn_length; cbn [List.length] in *; lia); reflexivity.
Qed.
Definition scanned (p : bool) (d : Z) (s : txt) : outcome (list (CmModel.kind * txt)) := scan (S (List.length s)) p d s.
Lemma scan_piece (p : bool) (d : Z) (w s : txt) (a : act) : w <> [] -> best (if p then paren_rules else initial_rules) (w ++ s) = Some (List.length w, a) ->
  scanned p d (w ++ s) = let (k, st) := match a with
                             | Gather k => (k, (p, d))
                             | Open => (TT_PAREN, (true, d + 1)%Z)
                             | Close => (TT_PAREN, (negb (d - 1 =? 0)%Z, d - 1)%Z)
                             end in
    do rest <- scanned (fst st) (snd st) s; Ok ((k, w) :: rest).
Proof.
  intros NE B. unfold scanned. cbn [scan]. destruct (w ++ s) as [|c x] eqn:E; [destruct w; [congruence | discriminate E] |]. rewrite <- E in *. rewrite B.
  assert (F : firstn (List.length w) (w ++ s) = w) by (rewrite firstn_app, firstn_all, Nat.sub_diag; cbn [firstn]; apply app_nil_r).
  assert (K : skipn (List.length w) (w ++ s) = s) by (rewrite skipn_app, skipn_all, Nat.sub_diag; reflexivity).
  rewrite F, K. assert (L : List.length s < List.length (w ++ s)) by (rewrite app_length; destruct w; [congruence | cbn [List.length]; lia]).
  destruct a; cbn [fst snd]; rewrite (scan_fuel (List.length (w ++ s)) (S (List.length s))) by lia; reflexivity.
Qed.
Lemma blank_in c : blank c -> In c [" "; "009"]%char.
Proof. intros [->| ->]; cbn; auto. Qed.
Lemma blank_re b : b <> [] -> Forall blank b -> matches (plus (Chr (fun c => Ascii.eqb c " " || Ascii.eqb c "009"))) b.
Proof.
  intros NE F. assert (K : forall c, blank c -> (Ascii.eqb c " " || Ascii.eqb c "009") = true) by (intros c [->| ->]; reflexivity).
  destruct F as [|c b C F]; [congruence |]. change (c :: b) with ([c] ++ b). constructor; [constructor; auto |]. clear NE C. induction F as [|c' b C' F IH]; [constructor |]. change (c' :: b) with ([c'] ++ b). constructor; [constructor; auto | exact IH].
Qed.
Lemma not_uses r w c : In c w -> uses c r = false -> ~ matches r w.
Proof. intros I U M. rewrite (uses_ok _ _ _ M I) in U. discriminate U. Qed.
Lemma matchb_false r w : matchb r w = false -> ~ matches r w.
Proof. intros H M. apply matchb_ok in M. congruence. Qed.
Ltac skip_rule := apply fm_next; [apply matchb_false; reflexivity |].
Lemma blank_best b s : b <> [] -> Forall blank b -> before blank s -> best initial_rules (b ++ s) = Some (List.length b, Gather Skipped).
Proof.
  intros NE F BS. apply best_is.
  - destruct b as [|c b0] eqn:EB; [congruence |]. rewrite <- EB in *. assert (I : In c b) by (rewrite EB; left; reflexivity). assert (BC : blank c) by (rewrite Forall_forall in F; auto).
    unfold initial_rules. do 5 (apply fm_next; [apply (not_uses _ _ c I); destruct BC as [->| ->]; reflexivity |]). apply fm_here, blank_re; auto.
  - destruct b as [|c0 b]; [congruence |]. destruct s as [|c s]; [exact Logic.I |]. intros r a I U0 U1. cbn [before] in BS. inversion F as [|? ? B0 _]; subst.
    unfold initial_rules in I. cbn [In] in I.
    assert (NB : Ascii.eqb c " " || Ascii.eqb c "009" = false).
    { destruct (Ascii.eqb_spec c " "); [exfalso; apply BS; left; assumption |]. destruct (Ascii.eqb_spec c "009"); [exfalso; apply BS; right; assumption | reflexivity]. }
    repeat (destruct I as [I|I]; [injection I as <- <-; first [reflexivity | destruct B0 as [->| ->]; discriminate U0 | unfold plus in U1; cbn [uses] in U1; rewrite NB in U1; discriminate U1] |]). destruct I.
Qed.
Lemma nl_uses c r a : In (r, a) initial_rules -> uses newline r = true -> uses c r = true -> c <> newline -> c <> return_ -> single r = true.
Proof.
  intros I U0 U1 N1 N2. assert (E1 : Ascii.eqb newline c = false) by (apply Ascii.eqb_neq; congruence). assert (E2 : Ascii.eqb return_ c = false) by (apply Ascii.eqb_neq; congruence).
  unfold initial_rules in I. cbn [In] in I.
  repeat (destruct I as [I|I]; [injection I as <- <-; first [reflexivity | discriminate U0 | exfalso; cbn [EOL plus opt one uses] in U1; fold newline return_ in U1; unfold one in U1; cbn [uses] in U1; change "010"%char with newline in U1; change "013"%char with return_ in U1; rewrite ?E1, ?E2 in U1; discriminate U1] |]). destruct I.
Qed.
Lemma nl_apart w s : before (fun c => c = newline \/ c = return_) s ->
  match newline :: w, s with c0 :: _, c :: _ => forall r b, In (r, b) initial_rules -> uses c0 r = true -> uses c r = true -> single r = true | [], _ => False | _, [] => True end.
Proof. intro B. destruct s as [|c s]; [exact I |]. intros r b IR U0 U1. apply (nl_uses c r b); auto; intro E; apply B; auto. Qed.
Lemma line_best s : before (fun c => c = newline \/ c = return_) s -> best initial_rules ([newline] ++ s) = Some (1, Gather Skipped).
Proof.
  intro B. apply (best_is _ [newline]); [| exact (nl_apart [] s B)]. unfold initial_rules. do 6 skip_rule. apply fm_here. apply matchb_ok. reflexivity.
Qed.
Lemma nls n : matches (Star EOL) (repeat newline n).
Proof. induction n as [|n IH]; [constructor |]. change (repeat newline (S n)) with ([newline] ++ repeat newline n). constructor; [apply matchb_ok; reflexivity | exact IH]. Qed.
Lemma para_best n s : before (fun c => c = newline \/ c = return_) s -> best initial_rules (repeat newline (S (S n)) ++ s) = Some (S (S n), Gather TT_NEWLINE).
Proof.
  intro B. replace (Some (S (S n), Gather TT_NEWLINE)) with (Some (List.length (repeat newline (S (S n))), Gather TT_NEWLINE)) by (rewrite repeat_length; reflexivity).
  apply best_is; [| exact (nl_apart (repeat newline (S n)) s B)].
  unfold initial_rules. do 6 (apply fm_next; [apply (not_uses _ _ newline); [left; reflexivity | reflexivity] |]). apply fm_next.
  - intro M. unfold EOL in M. apply m_cat_inv in M. destruct M as (x & y & E & X & Y). apply m_one in Y. subst y. apply m_opt in X. rewrite m_one in X. destruct X as [->| ->]; cbn in E; discriminate E.
  - apply fm_here. change (repeat newline (S (S n))) with ([newline] ++ [newline] ++ repeat newline n). constructor; [apply matchb_ok; reflexivity |]. unfold plus. constructor; [apply matchb_ok; reflexivity | apply nls].
Qed.
Lemma open_first c s : opening c -> best initial_rules ([c] ++ s) = Some (1, Open).
Proof.
  intro O. apply (best_is _ [c]).
  - unfold initial_rules. do 8 (apply fm_next; [destruct O as [->| ->]; apply matchb_false; reflexivity |]). apply fm_here, matchb_ok. destruct O as [->| ->]; reflexivity.
  - destruct s as [|c1 s]; [exact I |]. intros r b IR U0 _. unfold initial_rules in IR. cbn [In] in IR.
    repeat (destruct IR as [IR|IR]; [injection IR as <- <-; first [reflexivity | destruct O as [->| ->]; discriminate U0] |]). destruct IR.
Qed.
Lemma open_paren c s : opening c -> best paren_rules ([c] ++ s) = Some (1, Open).
Proof.
  intro O. apply (best_is _ [c]).
  - apply fm_here, matchb_ok. destruct O as [->| ->]; reflexivity.
  - destruct s as [|c1 s]; [exact I |]. intros r b IR U0 _. unfold paren_rules in IR. cbn [In] in IR.
    repeat (destruct IR as [IR|IR]; [injection IR as <- <-; first [reflexivity | destruct O as [->| ->]; discriminate U0] |]). destruct IR.
Qed.
Lemma close_paren c s : closing c -> best paren_rules ([c] ++ s) = Some (1, Close).
Proof.
  intro O. apply (best_is _ [c]).
  - do 2 (apply fm_next; [destruct O as [->| ->]; apply matchb_false; reflexivity |]). apply fm_here, matchb_ok. destruct O as [->| ->]; reflexivity.
  - destruct s as [|c1 s]; [exact I |]. intros r b IR U0 _. unfold paren_rules in IR. cbn [In] in IR.
    repeat (destruct IR as [IR|IR]; [injection IR as <- <-; first [reflexivity | destruct O as [->| ->]; discriminate U0] |]). destruct IR.
Qed.
Lemma free_char c : ~ opening c -> ~ closing c -> existsb (Ascii.eqb c) (lit "[]()") = false.
Proof.
  intros O C. destruct (existsb (Ascii.eqb c) (lit "[]()")) eqn:E; [exfalso | reflexivity]. apply existsb_exists in E. destruct E as (x & I & Q). apply Ascii.eqb_eq in Q. subst x.
  cbn in I. unfold opening, closing in *. intuition.
Qed.
Lemma text_paren x c s : x <> [] -> (forall c, In c x -> ~ opening c /\ ~ closing c) -> opening c \/ closing c -> best paren_rules (x ++ c :: s) = Some (List.length x, Gather TT_PAREN).
Proof.
  intros NE F OC. destruct x as [|c0 x0] eqn:EX; [congruence |]. rewrite <- EX in *. assert (I0 : In c0 x) by (rewrite EX; left; reflexivity). destruct (F _ I0) as [F1 F2]. pose proof (free_char _ F1 F2) as FC.
  assert (H : forall c, In c x -> negb (existsb (Ascii.eqb c) (lit "[]()")) = true) by (intros d D; destruct (F _ D); rewrite free_char by assumption; reflexivity).
  apply best_is.
  - apply fm_next.
    + apply (not_uses _ _ c0 I0). unfold any_of. cbn [uses]. cbn in FC |- *. destruct (Ascii.eqb c0 "["); [discriminate FC |]. destruct (Ascii.eqb c0 "]"); [discriminate FC |]. destruct (Ascii.eqb c0 "("); [discriminate FC | reflexivity].
    + apply fm_here. clear EX I0. destruct x as [|d x]; [congruence |]. change (d :: x) with ([d] ++ x). unfold plus. constructor; [constructor; apply H; left; reflexivity |].
      assert (H' : forall c, In c x -> negb (existsb (Ascii.eqb c) (lit "[]()")) = true) by (intros; apply H; right; assumption). clear - H'.
      induction x as [|e x IH]; [constructor |]. change (e :: x) with ([e] ++ x). constructor; [constructor; apply H'; left; reflexivity | apply IH; intros; apply H'; right; assumption].
  - rewrite EX. intros r b IR U0 U1. unfold paren_rules in IR. cbn [In] in IR. destruct IR as [IR|[IR|[IR|[]]]]; injection IR as <- <-; try reflexivity.
    exfalso. unfold plus in U1. cbn [uses] in U1. destruct OC as [[->| ->]|[->| ->]]; discriminate U1.
Qed.
Lemma inside_scan d ps s : inside d ps -> scanned true (Z.of_nat d) (List.concat ps ++ s) = do rest <- scanned false 0 s; Ok (map (fun p => (TT_PAREN, p)) ps ++ rest).
Proof.
  assert (AS : forall x (o : outcome (list (CmModel.kind * txt))) l, (do rest <- (do rest <- o; Ok (l ++ rest)); Ok ((TT_PAREN, x) :: rest)) = (do rest <- o; Ok ((TT_PAREN, x) :: l ++ rest))) by (intros; destruct o; reflexivity).
  induction 1 as [c C|c d ps C IN IH|c d ps O IN IH|x d c ps NE F OC IN IH].
  - cbn [List.concat map]. rewrite app_nil_r. rewrite (scan_piece true _ [c] _ Close); [| discriminate | apply close_paren; exact C]. reflexivity.
  - cbn [List.concat map]. rewrite <- app_assoc. rewrite (scan_piece true _ [c] _ Close); [| discriminate | apply close_paren; exact C]. cbn [fst snd].
    replace (Z.of_nat (S (S d)) - 1)%Z with (Z.of_nat (S d)) by lia. replace (Z.of_nat (S d) =? 0)%Z with false by (symmetry; apply Z.eqb_neq; lia). cbn [negb]. rewrite IH. apply AS.
  - cbn [List.concat map]. rewrite <- app_assoc. rewrite (scan_piece true _ [c] _ Open); [| discriminate | apply open_paren; exact O]. cbn [fst snd].
    replace (Z.of_nat (S d) + 1)%Z with (Z.of_nat (S (S d))) by lia. rewrite IH. apply AS.
  - change (List.concat (x :: [c] :: ps)) with (x ++ List.concat ([c] :: ps)). rewrite <- app_assoc.
    rewrite (scan_piece true _ x _ (Gather TT_PAREN) NE); [| cbn [List.concat app]; apply text_paren; assumption]. cbn [fst snd]. rewrite IH. apply AS.
Qed.

(* ---- what is gathered ---- *)
Definition node_of (i : item) (ns : list (CmModel.kind * txt)) : Prop :=
  match i with
  | Word w => exists k, firstm initial_rules w (Gather k) /\ w <> [] /\ (forall c, In c w -> In c all_letters) /\ (k = Fell /\ ns = [] \/ (k = TT_CMAVO \/ k = TT_BRIVLA \/ k = TT_CMENE) /\ ns = [(k, w)])
  | Paragraph => ns = [(TT_NEWLINE, [])]
  | Brackets ps => ns = map (fun p => (TT_PAREN, p)) ps
  end.
Lemma gathered_app a b : gathered (a ++ b) = gathered a ++ gathered b.
Proof. apply flat_map_app. Qed.
Lemma gathered_paren ps : gathered (map (fun p => (TT_PAREN, p)) ps) = map (fun p => (TT_PAREN, p)) ps.
Proof. induction ps as [|p ps IH]; [reflexivity |]. cbn [map]. change (gathered ((TT_PAREN, p) :: map (fun p => (TT_PAREN, p)) ps)) with ((TT_PAREN, p) :: gathered (map (fun p => (TT_PAREN, p)) ps)). rewrite IH. reflexivity. Qed.
Lemma laid_scan its s : laid its s -> forall nss, Forall2 node_of its nss -> exists ts, scanned false 0 s = Ok ts /\ gathered ts = List.concat nss.
Proof.
  induction 1 as [|b its s NE F BS L IH|its s BS L IH|n its s BS L IH|w its s E L IH|c ps its s O IN L IH]; intros nss N.
  - inversion N. exists []. split; reflexivity.
  - destruct (IH _ N) as (ts & E & G). exists ((Skipped, b) :: ts). rewrite (scan_piece false 0 b s _ NE (blank_best _ _ NE F BS)). cbn [fst snd]. rewrite E. split; [reflexivity | exact G].
  - destruct (IH _ N) as (ts & E & G). exists ((Skipped, [newline]) :: ts). change (newline :: s) with ([newline] ++ s). rewrite (scan_piece false 0 [newline] s (Gather Skipped)); [| discriminate | apply line_best; exact BS]. cbn [fst snd]. rewrite E. split; [reflexivity | exact G].
  - inversion N as [|i ns its' nss' N1 N2]; subst. cbn [node_of] in N1. subst ns. destruct (IH _ N2) as (ts & E & G). exists ((TT_NEWLINE, repeat newline (S (S n))) :: ts).
    rewrite (scan_piece false 0 (repeat newline (S (S n))) s (Gather TT_NEWLINE)); [| discriminate | rewrite repeat_length; apply para_best; exact BS]. cbn [fst snd]. rewrite E. split; [reflexivity |].
    change (gathered ((TT_NEWLINE, repeat newline (S (S n))) :: ts)) with ((TT_NEWLINE, []) :: gathered ts). rewrite G. reflexivity.
  - inversion N as [|i ns its' nss' N1 N2]; subst. destruct N1 as (k & FM & NE & W & K). destruct (IH _ N2) as (ts & E' & G). exists ((k, w) :: ts).
    rewrite (scan_piece false 0 w s (Gather k) NE (word_best _ _ _ NE W E FM)). cbn [fst snd]. rewrite E'. split; [reflexivity |].
    destruct K as [[-> ->]|[K ->]]; [exact G |]. cbn [List.concat app]. rewrite <- G. destruct K as [->|[->| ->]]; reflexivity.
  - inversion N as [|i ns its' nss' N1 N2]; subst. cbn [node_of] in N1. subst ns. destruct (IH _ N2) as (ts & E & G). exists (map (fun p => (TT_PAREN, p)) ([c] :: ps) ++ ts).
    change (List.concat ([c] :: ps)) with ([c] ++ List.concat ps). rewrite <- app_assoc. rewrite (scan_piece false 0 [c] _ Open); [| discriminate | apply open_first; exact O]. cbn [fst snd].
    change (0 + 1)%Z with (Z.of_nat 1). rewrite (inside_scan _ _ _ IN), E. split; [reflexivity |]. rewrite gathered_app, gathered_paren, G. reflexivity.
Qed.
