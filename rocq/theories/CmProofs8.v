(* The word glosser: what is printed. *)
From Coq Require Import String Ascii List NArith ZArith Bool Arith Lia.
From Verif Require Import Base LayoutModel LujvoSpec CmModel CmSpec CmProofs CmProofs2 CmProofs3 CmProofs4 CmProofs5 CmProofs6 CmProofs7.
Import ListNotations.
Open Scope list_scope.

Lemma vowels_letters v : vowels v -> forallb lojban_letter v = true.
Proof. intros [a A|a b A B|]; cbn [forallb]; unfold lojban_letter; rewrite ?A, ?B, ?orb_true_r; reflexivity. Qed.
Lemma nucleus_letters n : nucleus n -> forallb lojban_letter n = true /\ n <> [].
Proof.
  induction 1 as [v V|v n V N [IH _]]; [split; [apply vowels_letters; exact V | destruct V; discriminate] |]. split; [| destruct V; discriminate].
  rewrite forallb_app, vowels_letters by exact V. cbn [forallb]. rewrite IH. reflexivity.
Qed.
Lemma syllables_letters us : Forall syllable us -> forallb lojban_letter (List.concat us) = true.
Proof.
  induction 1 as [|u us (c & n & -> & C & N) F IH]; [reflexivity |]. cbn [List.concat]. rewrite forallb_app, IH. cbn [forallb]. destruct (nucleus_letters _ N) as [-> _]. unfold lojban_letter. rewrite C. reflexivity.
Qed.
Lemma cmavo_word_word w : cmavo_word w -> word w.
Proof.
  intros (u & us & U & F & ->). cbn [List.concat]. split.
  - destruct U as [(c & n & -> & _)|N]; [discriminate |]. destruct (nucleus_letters _ N) as [_ NE]. destruct u; [congruence | discriminate].
  - rewrite forallb_app, (syllables_letters _ F), andb_true_r. destruct U as [(c & n & -> & C & N)|N]; destruct (nucleus_letters _ N) as [E _]; [| exact E]. cbn [forallb]. rewrite E. unfold lojban_letter. rewrite C. reflexivity.
Qed.
Lemma word_in w : forallb lojban_letter w = true -> forall c, In c w -> In c all_letters.
Proof. intros W c I. rewrite forallb_forall in W. apply letter_in. auto. Qed.
Lemma dot_in d c : In c (dot d) -> In c all_letters.
Proof. destruct d; cbn [dot In]; [intros [<-|[]]; unfold all_letters; cbn; auto 30 | intros []]. Qed.

Section DICT.
  Variable dict : txt -> option txt.
  Hypothesis SE : small_entries dict.
  Lemma word_node w c t : word_shown dict w c t -> fits t -> fits c ->
    exists k, firstm initial_rules w (Gather k) /\ w <> [] /\ (forall c, In c w -> In c all_letters) /\ (k = TT_CMAVO \/ k = TT_BRIVLA \/ k = TT_CMENE) /\ trans_node dict (k, w) = Ok (c, t).
  Proof.
    assert (BRI : forall w, brivla_word w -> firstm initial_rules w (Gather TT_BRIVLA) /\ w <> [] /\ forall c, In c w -> In c all_letters).
    { intros v (W & (a & r & z & E & A & R & Z) & K). split; [apply (first_brivla _ a r z); assumption |]. destruct W as [NE W]. split; [exact NE | apply word_in; exact W]. }
    assert (CM : forall d us w, run d us w -> cmavo_token d us -> firstm initial_rules w (Gather TT_CMAVO) /\ w <> [] /\ forall c, In c w -> In c all_letters).
    { intros d us v R K. destruct R as [u us U F]. destruct d; cbn [cmavo_token app] in *.
      - destruct K as (n & ss & N & S & E). rewrite E. split; [apply first_dotted_cmavo; assumption |]. split; [discriminate |].
        intros x [<-|I]; [unfold all_letters; cbn; auto 30 |]. apply (word_in (List.concat (n :: ss))); [| exact I]. cbn [List.concat]. rewrite forallb_app, (syllables_letters _ S). destruct (nucleus_letters _ N) as [-> _]. reflexivity.
      - destruct K as [K NY]. pose proof (cmavo_word_word _ K) as W. split; [apply first_cmavo; assumption |]. destruct W as [NE W]. split; [exact NE | apply word_in; exact W]. }
    intros H FT FC. destruct H as [d1 d2 w W E|w t B E|k p l w gs P L NC E G|p rest w B BO E|d us w t R K E L|d us w ts cs R K E L KN S1 S2].
    - exists TT_CMENE. split; [apply first_dotted_name; assumption |]. split; [destruct d1; [discriminate |]; destruct W as [NE _]; destruct w; [congruence | discriminate] |].
      split; [| split; [auto | reflexivity]]. intros c I. rewrite !in_app_iff in I. destruct I as [I|[I|I]]; [apply (dot_in d1) | apply (word_in w); [apply W |] | apply (dot_in d2)]; exact I.
    - destruct (BRI _ B) as (F & NE & I). exists TT_BRIVLA. repeat split; auto. unfold trans_node. cbn [fst snd]. unfold translate. rewrite E. rewrite fit_ok by exact FT. reflexivity.
    - destruct (BRI _ (lujvo_brivla _ _ P L)) as (F & NE & I). exists TT_BRIVLA. repeat split; auto. unfold trans_node. cbn [fst snd]. unfold translate at 1. rewrite E. cbn [obind].
      rewrite (compound_gloss dict k p l w gs) by assumption. reflexivity.
    - destruct (BRI _ B) as (F & NE & I). exists TT_BRIVLA. repeat split; auto. unfold trans_node. cbn [fst snd]. unfold translate at 1. rewrite E. cbn [obind].
      rewrite (borrowing_gloss dict p rest w) by assumption. reflexivity.
    - destruct (CM _ _ _ R K) as (F & NE & I). exists TT_CMAVO. repeat split; auto. apply (whole_gloss dict SE d us w t R E L).
    - destruct (CM _ _ _ R K) as (F & NE & I). exists TT_CMAVO. repeat split; auto.
      destruct (run_gloss dict SE d us w R E L KN) as (ts' & cs' & T1 & T2 & EQ). rewrite (shown_once _ _ _ _ S1 T1), (shown_once _ _ _ _ S2 T2) in *. apply EQ; assumption.
  Qed.

  Lemma do_trans_app a b ra rb : do_trans dict a = Ok ra -> do_trans dict b = Ok rb -> do_trans dict (a ++ b) = Ok (ra ++ rb).
  Proof.
    revert ra. induction a as [|n a IH]; intros ra A B; cbn [do_trans app] in *; [injection A as <-; exact B |].
    destruct (trans_node dict n) as [x| | | |]; cbn [obind] in *; try discriminate A. destruct (do_trans dict a) as [r| | | |] eqn:E; cbn [obind] in *; try discriminate A. injection A as <-.
    rewrite (IH r eq_refl B). reflexivity.
  Qed.
  Lemma item_node i o : item_shown dict i o -> exists ns rs, node_of i ns /\ do_trans dict ns = Ok rs /\ List.concat (map text_op (calls rs)) = o.
  Proof.
    intros [w c t W L1 L2|w (W & NC & NN & NB)| |ps].
    - destruct (word_node _ _ _ W L1 L2) as (k & F & NE & I & K & T). exists [(k, w)], [(k, w, (c, t))]. split; [exists k; auto 6 |]. cbn [do_trans]. rewrite T. split; [reflexivity |].
      cbn [calls map fst snd List.concat]. destruct K as [->|[->| ->]]; cbn [text_op]; rewrite app_nil_r; reflexivity.
    - exists [], []. split; [| split; reflexivity]. exists Fell. split; [apply first_other; assumption |]. destruct W as [NE W]. split; [exact NE |]. split; [apply word_in; exact W | auto].
    - exists [(TT_NEWLINE, [])], [(TT_NEWLINE, [], ([], []))]. repeat split.
    - exists (map (fun p => (TT_PAREN, p)) ps), (map (fun p => ((TT_PAREN, p), ([], []))) ps). split; [reflexivity |]. split.
      + induction ps as [|p ps IH]; [reflexivity |]. cbn [map do_trans]. rewrite IH. reflexivity.
      + unfold calls. rewrite !map_map. reflexivity.
  Qed.
  Theorem program its s outs : laid its s -> Forall2 (item_shown dict) its outs -> cmafihe dict OF_TEXT s = Ok (List.concat outs ++ eol).
  Proof.
    intros L F. assert (N : exists nss rs, Forall2 node_of its nss /\ do_trans dict (List.concat nss) = Ok rs /\ List.concat (map text_op (calls rs)) = List.concat outs).
    { clear L. induction F as [|i o its outs I F (nss & rs & N & D & C)]; [exists [], []; repeat split; constructor |]. destruct (item_node _ _ I) as (ns & r & NI & DI & CI).
      exists (ns :: nss), (r ++ rs). split; [constructor; assumption |]. cbn [List.concat]. split; [apply do_trans_app; assumption |]. unfold calls in *. rewrite map_app, map_app, concat_app, CI, C. reflexivity. }
    destruct N as (nss & rs & N & D & C). destruct (laid_scan _ _ L _ N) as (ts & E & G). unfold cmafihe, yylex. fold (scanned false 0 s). rewrite E. cbn [obind]. rewrite G, D. cbn [obind]. rewrite C. reflexivity.
  Qed.
End DICT.

(* ---- tokens ---- *)
Lemma token_of w s k : w <> [] -> (forall c, In c w -> In c all_letters) -> firstm initial_rules w (Gather k) -> ended s -> yylex (w ++ s) = do ts <- yylex s; Ok ((k, w) :: ts).
Proof. intros NE W F E. exact (scan_piece false 0 w s (Gather k) NE (word_best _ _ _ NE W E F)). Qed.
Lemma token_name d1 d2 w s : word w -> ends_in cons w -> ended s -> yylex (dot d1 ++ w ++ dot d2 ++ s) = do ts <- yylex s; Ok ((TT_CMENE, dot d1 ++ w ++ dot d2) :: ts).
Proof.
  intros W E ES. rewrite (app_assoc w), app_assoc. apply token_of; [destruct d1; [discriminate |]; destruct W as [NE _]; destruct w; [congruence | discriminate] | | apply first_dotted_name; assumption | exact ES].
  intros c I. rewrite !in_app_iff in I. destruct I as [I|[I|I]]; [apply (dot_in d1) | apply (word_in w); [apply W |] | apply (dot_in d2)]; exact I.
Qed.
Lemma token_brivla w s : brivla_word w -> ended s -> yylex (w ++ s) = do ts <- yylex s; Ok ((TT_BRIVLA, w) :: ts).
Proof.
  intros (W & (a & r & z & E & A & R & Z) & K) ES. apply token_of; [apply W | apply word_in; apply W | apply (first_brivla _ a r z); assumption | exact ES].
Qed.
Lemma token_cmavo w s : cmavo_word w -> ~ cvcy w -> ended s -> yylex (w ++ s) = do ts <- yylex s; Ok ((TT_CMAVO, w) :: ts).
Proof. intros K NY ES. pose proof (cmavo_word_word _ K) as W. apply token_of; [apply W | apply word_in; apply W | apply first_cmavo; assumption | exact ES]. Qed.
Lemma token_other w s : no_word w -> ended s -> yylex (w ++ s) = do ts <- yylex s; Ok ((Fell, w) :: ts).
Proof. intros (W & NC & NN & NB) ES. apply token_of; [apply W | apply word_in; apply W | apply first_other; assumption | exact ES]. Qed.
Lemma token_kinds w : word w -> ends_in cons w \/ brivla_word w \/ (cmavo_word w /\ ~ cvcy w) \/ no_word w.
Proof.
  intro W. destruct (match_dec w name_re) as [N|N]; rewrite name_ok in N by exact W; [auto |]. destruct (match_dec w CM_) as [K|K]; rewrite cm_ok in K by exact W.
  - destruct (match_dec w BM3) as [Y|Y]; rewrite bm3_ok in Y.
    + right. left. destruct Y as [Y _]. split; [exact W |]. split; [| auto]. destruct Y as (a & v & b & c & r & z & -> & A & V & B & C & R & Z). exists a, (v :: b :: "y"%char :: c :: r), z. repeat split; auto. discriminate.
    + right. right. left. split; [exact K | intro Q; apply Y; auto].
  - destruct (match_dec w brivla_re) as [B|B]; rewrite brivla_ok in B.
    + right. left. split; [exact W |]. split; [| auto]. destruct B as (c & r & z & E & C & [R _] & Z). exists c, r, z. auto.
    + right. right. right. split; [exact W |]. split; [exact K |]. split; [exact N |]. intros c r z E C R Z. apply B. exists c, r, z. repeat split; auto. destruct W as [_ W]. rewrite E in W. cbn [forallb] in W. apply andb_true_iff in W. destruct W as [_ W].
      rewrite forallb_app in W. apply andb_true_iff in W. apply W.
Qed.
Lemma token_brackets c ps s : opening c -> inside 1 ps -> yylex (List.concat ([c] :: ps) ++ s) = do ts <- yylex s; Ok (map (fun p => (TT_PAREN, p)) ([c] :: ps) ++ ts).
Proof.
  intros O IN. change (List.concat ([c] :: ps)) with ([c] ++ List.concat ps). rewrite <- app_assoc. change yylex with (scanned false 0). rewrite (scan_piece false 0 [c] _ Open); [| discriminate | apply open_first; exact O]. cbn [fst snd].
  change (0 + 1)%Z with (Z.of_nat 1). rewrite (inside_scan _ _ _ IN). destruct (scanned false 0 s); reflexivity.
Qed.
