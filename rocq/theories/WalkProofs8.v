(* The walk of terms.c: what labels are put on and refer to. *)
From Coq Require Import String List NArith ZArith Bool Arith Lia.
From Verif Require Import Base TokData CmavoData TokModel TreeModel TreeOutModel GramModel GramSpec GramProofs PassProofs2 ConvProofs2 ConvSpec TermsModel TermsSpec TermsProofs TermsProofs2
  WalkModel WalkSpec WalkProofs WalkProofs2 WalkProofs3 WalkProofs4 WalkProofs5 WalkProofs6 WalkProofs7.
From Verif Require OutModel PassModel.
Import OutModel(term_tag, TTT_BRIVLA, TTT_JAITAG, TTT_ABSTRACTION, TTT_ME, TTT_NUMBERMOI, TTT_GOhA, TTT_NUhA, TTT_ZEI).
Import ListNotations.
Open Scope string_scope.
Open Scope list_scope.

Definition node_of (t : term) : path := match t with TRM_POS n | TRM_FA _ n | TRM_FAhI n | TRM_TAG n => n end.

(* ---------- places ---------- *)

Section GIVEN.
  Variable tags : list (path * path).
  (* a place of the head, or one of a jai with a tag *)
  Definition sane (a : place_type * nat) : Prop :=
    1 <= snd a /\ (fst a = PT_ORD \/ exists t u, fst a = PT_TAG t u /\ In (t, u) tags).
  Definition low (a : place_type * nat) : Prop := snd a < 20.
  Definition fine (f : frame (place_type * nat)) : Prop :=
    (forall p, 1 <= p -> sane (what f p) /\ (p < 20 -> low (what f p))) /\ Forall (fun a => sane a /\ low a) (hidden f).
  Definition given_ok (ts : list path) (out : list (given (place_type * nat))) : Prop :=
    forall x n a, In (x, n, a) out -> In x ts /\ sane a /\ (match n with Some p => p < 20 | None => True end -> low a).
  Lemma given_app ts a b : given_ok ts a -> given_ok ts b -> given_ok ts (a ++ b).
  Proof. intros A B x n p I. apply in_app_iff in I. destruct I as [I|I]; [apply (A _ _ _ I) | apply (B _ _ _ I)]. Qed.
  Lemma given_incl ts ts' a : given_ok ts a -> incl ts ts' -> given_ok ts' a.
  Proof. intros A B x n p I. destruct (A _ _ _ I) as [C D]. split; [apply B; exact C | exact D]. Qed.

  Lemma unmarked_in f b ts out f' : unmarked f b ts out f' -> 1 <= b -> forall x p, In (x, p) out -> In x (map node_of ts) /\ 1 <= p.
  Proof.
    induction 1 as [fu b|fu b n ts p out fu' Bp E T U IH|fu b k n ts out fu' K U IH|fu b n ts out fu' U IH|fu b n ts out fu' U IH|fu b n ts out fu' U IH];
      intros B x q I; cbn [map node_of In] in *.
    - destruct I.
    - destruct I as [I|I]; [injection I as <- <-; split; [auto | lia] |]. destruct (IH ltac:(lia) _ _ I). auto.
    - destruct (IH ltac:(lia) _ _ I). auto.
    - destruct (IH B _ _ I). auto.
    - destruct (IH B _ _ I). auto.
    - destruct (IH B _ _ I). auto.
  Qed.
  Lemma placed_in f b ts out f' : Forall term_ok ts -> placed f b ts out f' -> 1 <= b -> fine f -> given_ok (map node_of ts) out /\ fine f'.
  Proof.
    intros TO [out1 full' U] B (F1 & F2). split; [| split; assumption]. apply given_app.
    - intros x n a I. unfold named in I. apply in_flat_map in I. destruct I as (t & I & J). destruct t as [m|k m|m|m]; try destruct J.
      rewrite Forall_forall in TO. pose proof (TO _ I) as TK. cbn [term_ok] in TK. assert (IM : In m (map node_of ts)) by (apply in_map_iff; exists (TRM_FA k m); auto).
      destruct (Nat.leb_spec k 5).
      + destruct J as [J|[]]. injection J as <- <- <-. split; [exact IM |]. apply F1. lia.
      + destruct (hidden f) as [|h hs]; [destruct J |]. destruct J as [J|[]]. injection J as <- <- <-. split; [exact IM |]. inversion F2 as [|? ? Q1 Q2]; subst. tauto.
    - intros x n a I. apply in_map_iff in I. destruct I as ((y & p) & Q & I). injection Q as <- <- <-. destruct (unmarked_in _ _ _ _ _ U B _ _ I).
      cbn [fst snd]. split; [assumption |]. apply F1. assumption.
  Qed.
  Definition link_nodes (e : link_conv) : list path := match e with LC_LINKS v => map node_of v | _ => [] end.
  Definition link_tags (e : link_conv) : Prop := match e with LC_TAG t u => In (t, u) tags | _ => True end.
  Lemma jai_fine f t : fine f -> match t with Some x => In x tags | None => True end -> fine (jai obs jai_shown true f t).
  Proof.
    intros (F1 & F2) K. split.
    - intros p P. cbn [what jai]. destruct (Nat.eqb_spec p 1); [| apply F1; exact P]. destruct (F1 1 ltac:(lia)) as ((A & _) & B). specialize (B ltac:(lia)). unfold low in *.
      destruct t as [[t u]|]; (split; [split |]); cbn [jai_shown fst snd]; auto. right. exists t, u. auto.
    - cbn [hidden jai]. constructor; [destruct (F1 1 ltac:(lia)) as (A & B); split; [exact A | apply B; lia] | exact F2].
  Qed.
  Lemma link_in e f out f' : link_ok e -> link_tags e -> link jai_shown true (fun _ _ => True) e f out f' -> fine f -> given_ok (link_nodes e) out /\ fine f'.
  Proof.
    intros K TG L F. destruct L as [c f C|f _|t u f _|v f out f' P].
    - split; [intros ? ? ? [] |]. destruct F as (F1 & F2). split; [| exact F2]. intros p P. cbn [what].
      assert (Q : 1 <= transpose 1 c p /\ (p < 20 -> transpose 1 c p < 20)) by (unfold transpose; destruct (Nat.eqb_spec p 1); [lia |]; destruct (Nat.eqb_spec p c); lia).
      destruct (F1 _ (proj1 Q)) as (A & B). split; [exact A |]. intro L. apply B. apply Q. exact L.
    - split; [intros ? ? ? [] |]. apply jai_fine; auto.
    - split; [intros ? ? ? [] |]. apply jai_fine; auto.
    - apply (placed_in _ _ _ _ _ K P); [lia | exact F].
  Qed.
  Lemma links_in es f out f' : links jai_shown true (fun _ _ => True) es f out f' -> Forall link_ok es -> Forall link_tags es -> fine f ->
    given_ok (flat_map link_nodes es) out /\ fine f'.
  Proof.
    induction 1 as [f|e es f out g outs h L Ls IH]; intros K TG F; [split; [intros ? ? ? [] | exact F] |].
    inversion K; inversion TG; subst. destruct (link_in e f out g) as (G1 & F1); try assumption. destruct IH as (G2 & F2); try assumption. split; [| exact F2].
    cbn [flat_map]. apply given_app; [apply (given_incl _ _ _ G1) | apply (given_incl _ _ _ G2)]; intros x I; apply in_app_iff; auto.
  Qed.
  Lemma observed_in pre post lc out : Forall term_ok pre -> Forall term_ok post -> Forall link_ok lc -> Forall link_tags lc -> observed pre post lc out ->
    given_ok (map node_of pre ++ map node_of post ++ flat_map link_nodes lc) out.
  Proof.
    intros T1 T2 K TG [o1 f1 o2 f2 o3 f3 L P1 P2].
    destruct (links_in _ _ _ _ L) as (G1 & F1).
    - apply Forall_rev; exact K.
    - apply Forall_rev; exact TG.
    - split; [| constructor]. intros p P. split; [split; [exact P | auto] | auto].
    - destruct (placed_in _ _ _ _ _ T1 P1 ltac:(lia) F1) as (G2 & F2). destruct (placed_in _ _ _ _ _ T2 P2 ltac:(lia) F2) as (G3 & F3).
      apply given_app; [| apply given_app].
      + apply (given_incl _ _ _ G1). intros x I. rewrite !in_app_iff. right. right. apply in_flat_map in I. destruct I as (e & I & J). apply in_flat_map. exists e.
        rewrite in_rev. auto.
      + apply (given_incl _ _ _ G2). intros x I. rewrite !in_app_iff. auto.
      + apply (given_incl _ _ _ G3). intros x I. rewrite !in_app_iff. auto.
  Qed.
End GIVEN.

(* ---------- terms ---------- *)

Section TERMS.
  Variable T : tree.
  Definition at_term (p : path) : Prop := exists ch, subtree T p = Some (NT "TERM" ch).
  Lemma terms_at t : forall p, subtree T p = Some t -> forall x, In x (terms_in p t) -> subtree T (fst x) = Some (snd x) /\ exists ch, snd x = NT "TERM" ch.
  Proof.
    induction t as [n|k ch IH] using tree_ind2; intros p E x I; [destruct I |]. cbn [terms_in] in I. destruct (String.eqb_spec k "TERM") as [->|N].
    - destruct I as [<-|[]]. cbn [fst snd]. eauto.
    - destruct (_ || _); [| destruct I]. change (In x (each p 0 ch)) in I.
      assert (G : forall i l, (forall j c, nth_error l j = Some c -> nth_error ch (i + j) = Some c) -> In x (each p i l) -> subtree T (fst x) = Some (snd x) /\ exists ch, snd x = NT "TERM" ch).
      { intros i l. revert i. induction l as [|c l IHl]; intros i H J; [destruct J |]. cbn [each] in J. apply in_app_iff in J. pose proof (H 0 c eq_refl) as HC. rewrite Nat.add_0_r in HC.
        destruct J as [J|J].
        - rewrite Forall_forall in IH. apply (IH c (nth_error_In _ _ HC) (p ++ [i])); [| exact J]. rewrite (subtree_app _ _ _ _ E). cbn [subtree]. rewrite HC. reflexivity.
        - apply (IHl (S i)); [| exact J]. intros j c' Q. specialize (H (S j) c' Q). replace (S i + j) with (i + S j) by lia. exact H. }
      apply (G 0 ch); [auto | exact I].
  Qed.
  Lemma sort_node x t : In t (sort x) -> node_of t = fst x.
  Proof.
    unfold sort. destruct (snd x) as [n|k [|[n|k' cc] ch]]; try (intros []). destruct (String.eqb k' "TERM_PLAIN_SUMTI"); [intros [<-|[]]; reflexivity |].
    destruct (String.eqb k' "TERM_PLACED_SUMTI").
    - destruct cc as [|c cc]; [intros [] |]. destruct (word c) as [[r n]|]; [| intros []]. unfold marked. destruct (String.eqb _ _); [intros [<-|[]]; reflexivity |].
      intro I. apply in_flat_map in I. destruct I as (e & _ & I). destruct (String.eqb _ _); [destruct I as [<-|[]]; reflexivity | destruct I].
    - destruct (among _ _); [intros [<-|[]]; reflexivity | intros []].
  Qed.
  Lemma sorts_at l : (forall x, In x l -> subtree T (fst x) = Some (snd x) /\ exists ch, snd x = NT "TERM" ch) -> Forall at_term (map node_of (sorts l)).
  Proof.
    intro H. apply Forall_forall. intros q I. apply in_map_iff in I. destruct I as (t & <- & I). unfold sorts in I. apply in_flat_map in I.
    destruct I as (x & I & J). rewrite (sort_node _ _ J). destruct (H x I) as (E & ch & Q). exists ch. rewrite E, Q. reflexivity.
  Qed.
  Lemma kid_terms_at K p k ch : subtree T p = Some (NT k ch) -> forall x, In x (kid_terms K p 0 ch) -> subtree T (fst x) = Some (snd x) /\ exists ch, snd x = NT "TERM" ch.
  Proof.
    intros E x. assert (G : forall l i, (forall j c, nth_error l j = Some c -> nth_error ch (i + j) = Some c) -> In x (kid_terms K p i l) -> subtree T (fst x) = Some (snd x) /\ exists ch, snd x = NT "TERM" ch).
    { induction l as [|c l IH]; intros i H I; [destruct I |]. cbn [kid_terms] in I. apply in_app_iff in I. destruct I as [I|I].
      - destruct (String.eqb (kind c) K); [| destruct I]. apply (terms_at c (p ++ [i])); [| exact I]. rewrite (subtree_app _ _ _ _ E). cbn [subtree].
        rewrite <- (Nat.add_0_r i), (H 0 c eq_refl). reflexivity.
      - apply (IH (S i)); [| exact I]. intros j c' Q. specialize (H (S j) c' Q). replace (S i + j) with (i + S j) by lia. exact H. }
    apply (G ch 0). auto.
  Qed.
  Lemma before_at r x : In x (before_r T r) -> subtree T (fst x) = Some (snd x) /\ exists ch, snd x = NT "TERM" ch.
  Proof.
    induction r as [|i r IH]; intro I; [destruct I |]. cbn [before_r] in I. destruct (subtree T (rev r)) as [[n|k ch]|] eqn:E; try destruct I.
    destruct (bridi_part k); [| destruct I]. apply in_app_iff in I. destruct I as [I|I]; [exact (IH I) | exact (kid_terms_at _ _ _ _ E _ I)].
  Qed.
  Lemma after_at r x : In x (after_r T r) -> subtree T (fst x) = Some (snd x) /\ exists ch, snd x = NT "TERM" ch.
  Proof.
    induction r as [|i r IH]; intro I; [destruct I |]. cbn [after_r] in I. destruct (subtree T (rev r)) as [[n|k ch]|] eqn:E; try destruct I.
    destruct (bridi_part k); [| destruct I]. apply in_app_iff in I. destruct I as [I|I]; [exact (kid_terms_at _ _ _ _ E _ I) | exact (IH I)].
  Qed.

  (* a jai with a tag, by its tag and its unit *)
  Definition at_jai (t u : path) : Prop := exists p i j, kid T p "JAI_TAG_TU2" i "TANRU_UNIT_2" /\ kid T p "JAI_TAG_TU2" j "TAG" /\ u = p ++ [i] /\ t = p ++ [j].
  Definition link_at (e : link_conv * path) : Prop :=
    match fst e with LC_LINKS v => Forall at_term (map node_of v) | LC_TAG t u => at_jai t u | _ => True end.
  Definition args_at (a : args) : Prop := let '(pre, post, lc) := a in Forall at_term (map node_of pre) /\ Forall at_term (map node_of post) /\ Forall link_at lc.
  Lemma step_at p a i b : step T p a i b -> args_at a -> args_at b.
  Proof.
    intros S1. destruct S1 as [| | | |p c la pre post lc E|p c rest i r x n pre post lc E WX I K|p i pre post lc K|p i j pre post lc K1 K2]; unfold args_at; try tauto; try (destruct a as [[pre post] lc]; tauto).
    - intros (A & B & C). split; [exact A |]. split; [constructor | exact C].
    - intros (A & B & C). split; [constructor |]. auto.
    - intros (A & B & C). split; [exact A |]. split; [exact B |]. apply Forall_app. split; [exact C |]. constructor; [| constructor]. cbn [link_at fst]. apply sorts_at.
      apply terms_at. rewrite (subtree_app _ _ _ _ E). reflexivity.
    - intros (A & B & C). split; [exact A |]. split; [exact B |]. apply Forall_app. split; [exact C |]. constructor; [exact Logic.I | constructor].
    - intros (A & B & C). split; [exact A |]. split; [exact B |]. apply Forall_app. split; [exact C |]. constructor; [exact Logic.I | constructor].
    - intros (A & B & C). split; [exact A |]. split; [exact B |]. apply Forall_app. split; [exact C |]. constructor; [| constructor]. exists p, i, j. auto.
  Qed.
  Lemma down_at p a q b : down T p a q b -> args_at a -> args_at b.
  Proof. induction 1; intro A; [exact A |]. eauto using step_at. Qed.
  Lemma source_at s a : source T s a -> args_at a.
  Proof.
    intros [B|[_ ->]]; [| repeat constructor]. destruct B as [p k ch E A|]; [| repeat constructor]. split; [apply sorts_at; intros x; apply before_at |].
    split; [apply sorts_at; intros x; apply after_at | constructor].
  Qed.

  (* the jai that are met are those on the way *)
  Lemma down_jai p a q b : down T p a q b -> forall t u y, In (LC_TAG t u, y) (snd b) -> In (LC_TAG t u, y) (snd a) \/
    exists r c i, down T p a r c /\ kid T r "JAI_TAG_TU2" i "TANRU_UNIT_2" /\ u = r ++ [i].
  Proof.
    induction 1 as [p a|p a i b q c S1 D IH]; intros t u y I; [auto |]. destruct (IH t u y I) as [J|(r & c' & j & D' & K & ->)].
    - destruct S1 as [| | | |p c0 la pre post lc E|p c0 rest i r x n pre post lc E WX IN K|p i pre post lc K|p i j pre post lc K1 K2]; try (left; exact J);
        cbn [snd] in *; apply in_app_iff in J; destruct J as [J|[J|[]]]; auto; try discriminate J.
      injection J as <- <- _. right. exists p, (pre, post, lc), i. split; [constructor | auto].
    - right. exists r, c', j. split; [econstructor; eassumption | auto].
  Qed.
End TERMS.

Section MAIN.
  Variable T : tree.
  Hypothesis PT : parsed T.
  Hypothesis CT : is_nt "CHUNKS" T = true.
  Variable es : list effect.
  Hypothesis R : terms_processing T = Ok es.

  Lemma word_sub c r x : word c = Some (r, x) -> subtree c r = Some (Leaf x).
  Proof.
    destruct c as [n|k ch]; cbn [word]; [intro Q; injection Q as <- <-; reflexivity |]. destruct (String.eqb k "AUGMENTED"); [| discriminate].
    assert (G : forall l i, (forall j d, nth_error l j = Some d -> nth_error ch (i + j) = Some d) -> unemphasised i l = Some (r, x) -> subtree (NT k ch) r = Some (Leaf x)).
    { induction l as [|[n|k' cc] l IH]; intros i H Q; cbn [unemphasised] in Q; try discriminate Q. destruct (cmtest n T_BAhE).
      - apply (IH (S i)); [| exact Q]. intros j d N. specialize (H (S j) d N). replace (S i + j) with (i + S j) by lia. exact H.
      - injection Q as <- <-. cbn [subtree]. rewrite <- (Nat.add_0_r i), (H 0 _ eq_refl). reflexivity. }
    apply (G ch 0). auto.
  Qed.
  Lemma kid_sub p k i k' : kid T p k i k' -> exists cc, subtree T (p ++ [i]) = Some (NT k' cc).
  Proof. intros (ch & cc & E & N). exists cc. rewrite (subtree_app _ _ _ _ E). cbn [subtree]. rewrite N. reflexivity. Qed.
  Definition bracketed (q : path) : Prop := In (Brackets q) es.
  Lemma moi_first ch : parsed (NT "NUMBER_MOI_TU2" ch) -> exists k cc, nth_error ch 0 = Some (NT k cc).
  Proof.
    intro P. destruct (alt _ _ _ P ltac:(discriminate) (moi_shape)) as (ss & F & SH). destruct ss as [|[k|t|] ss]; try discriminate SH.
    inversion F; subst; try discriminate. cbn. eauto.
  Qed.

  Lemma names_refer s a q b mk conv n : source T s a -> down T s a q b -> names T q mk conv -> refers T bracketed (mk n).
  Proof.
    intros SO D N. assert (BR : forall x, own T q b (Brackets x) -> bracketed x).
    { intros x O. unfold bracketed. apply (terms_effects T PT CT es R). exists s, a. split; [exact SO |]. exists q, b. auto. }
    assert (LF : forall c rest k r x, subtree T q = Some (NT k (c :: rest)) -> word c = Some (r, x) -> subtree T (q ++ 0 :: r) = Some (Leaf x)).
    { intros c rest k r x E WX. rewrite (subtree_app _ _ _ _ E). cbn [subtree nth_error]. apply word_sub. exact WX. }
    destruct N as [c rest r x w ty E WX DX|c rest r x a0 b0 t E WX DX|c rest r x E (WX & CX)|c rest r x i E (WX & CX) K|c rest r x i E (WX & CX) K
      |rest cc i c r x E N0 (WX & CX)|rest cc ccc c r x E (WX & CX)].
    - eapply rf_brivla; eauto.
    - eapply rf_zei; eauto.
    - eapply rf_goha; eauto.
    - destruct (kid_sub _ _ _ _ K) as (cc & EC). eapply rf_me; [exact EC |]. apply BR. apply own_me. eapply n_me; [exact E | split; [exact WX | exact CX] | exact K].
    - destruct (kid_sub _ _ _ _ K) as (cc & EC). eapply rf_nuha; [exact EC |]. apply BR. eapply own_nuha. eapply n_nuha; [exact E | split; [exact WX | exact CX] | exact K].
    - assert (EN : subtree T (q ++ [0]) = Some (NT "NUMBER_MOI_TU2" cc)) by (rewrite (subtree_app _ _ _ _ E); reflexivity).
      assert (PN : parsed (NT "NUMBER_MOI_TU2" cc)) by (eapply sits_parsed; [exact PT | exact CT | exact EN | discriminate]).
      destruct (moi_first cc PN) as (k & dd & F). eapply rf_moi; [| | exact CX].
      + replace (q ++ [0; 0]) with ((q ++ [0]) ++ [0]) by (rewrite <- app_assoc; reflexivity). rewrite (subtree_app _ _ _ _ EN). cbn [subtree]. rewrite F. reflexivity.
      + replace (q ++ 0 :: i :: r) with ((q ++ [0]) ++ i :: r) by (rewrite <- app_assoc; reflexivity). rewrite (subtree_app _ _ _ _ EN). cbn [subtree]. rewrite N0. apply word_sub. exact WX.
    - eapply rf_nu; [| exact CX]. rewrite (subtree_app _ _ _ _ E). cbn [subtree nth_error]. apply word_sub. exact WX.
  Qed.
  Lemma names_place q mk conv n : names T q mk conv -> place_of (mk n) = n.
  Proof. intro N. destruct N; reflexivity. Qed.

  Theorem labels_refer x t : In (Tagged x t) es -> at_term T x /\ refers T bracketed t /\ (1 <= place_of t <= 19)%Z.
  Proof.
    intro I. apply (labels_ok T PT CT es R) in I. destruct I as (s & a & q & pre & post & lc & mk & conv & out & n & p & SO & D & N & OB & I & ->).
    destruct (down_ok _ _ _ _ _ D (source_ok _ _ _ SO)) as (T1 & T2 & K). destruct (down_at _ _ _ _ _ D (source_at _ _ _ SO)) as (A1 & A2 & A3).
    set (tags := flat_map (fun e : link_conv * path => match fst e with LC_TAG t u => [(t, u)] | _ => [] end) lc).
    assert (TG : Forall (link_tags tags) (map fst lc)).
    { apply Forall_forall. intros e J. apply in_map_iff in J. destruct J as (e' & <- & J). destruct (fst e') as [v|c| |t u] eqn:Q; try exact Logic.I. cbn [link_tags].
      apply in_flat_map. exists e'. rewrite Q. split; [exact J | left; reflexivity]. }
    destruct (observed_in tags _ _ _ _ T1 T2 K TG OB _ _ _ I) as (IX & (P1 & PV) & LW).
    assert (BD : snd p <= 19).
    { pose proof (terms_good T PT CT es s a R SO) as G. destruct (G _ _ _ _ _ _ D N) as [(es' & GP) _]. unfold give_places in GP. oinv GP.
      destruct (assign_places_ok _ _ _ _ T1 T2 K OB) as [(F & _)|(_ & A)]; [| rewrite E in A; discriminate A].
      assert (L : low p) by (apply LW; destruct n as [n|]; [exact (F _ _ _ I) | exact Logic.I]). unfold low in L. lia. }
    split; [| split].
    - rewrite !in_app_iff in IX. destruct IX as [IX|[IX|IX]].
      + rewrite Forall_forall in A1. apply A1. exact IX.
      + rewrite Forall_forall in A2. apply A2. exact IX.
      + apply in_flat_map in IX. destruct IX as (e & IE & IX). apply in_map_iff in IE. destruct IE as (e' & <- & IE). rewrite Forall_forall in A3. specialize (A3 _ IE).
        unfold link_at in A3. destruct (fst e') as [v|c| |t u]; cbn [link_nodes] in IX; try destruct IX. rewrite Forall_forall in A3. apply A3. exact IX.
    - unfold name. destruct PV as [->|(t & u & -> & IT)]; [eapply names_refer; eauto |].
      unfold tags in IT. apply in_flat_map in IT. destruct IT as ((e & y) & IE & IT). cbn [fst] in IT. destruct e as [v|c| |t' u']; [destruct IT | destruct IT | destruct IT | destruct IT as [IT|[]]]. injection IT as -> ->.
      rewrite Forall_forall in A3. pose proof (A3 _ IE) as (r & i & j & K1 & K2 & -> & ->). destruct (kid_sub _ _ _ _ K1) as (c1 & E1). destruct (kid_sub _ _ _ _ K2) as (c2 & E2).
      eapply rf_jai; [exact E2 | exact E1 |]. destruct (down_jai _ _ _ _ _ D _ _ _ IE) as [J|(r' & c & i' & D' & K' & EQ)].
      + exfalso. destruct SO as [B|[_ ->]]; [| destruct J]. destruct B; destruct J.
      + apply app_inj_tail in EQ. destruct EQ as [<- <-]. unfold bracketed. apply (terms_effects T PT CT es R). exists s, a. split; [exact SO |]. exists r, c. split; [exact D' |].
        apply own_jai. exact K'.
    - replace (place_of (name mk p)) with (Z.of_nat (snd p)); [lia |]. unfold name. destruct (fst p); [symmetry; eapply names_place; exact N | reflexivity | symmetry; eapply names_place; exact N].
  Qed.
End MAIN.

Theorem tree_labels t es : parse_tree t -> let T := expand_bahe_ui t in terms_processing T = Ok es -> forall x l, In (Tagged x l) es <-> called T x l.
Proof. intro P. destruct (parse_expand t P) as [A B]. exact (labels_ok _ A B es). Qed.
Theorem tree_converted t es : parse_tree t -> let T := expand_bahe_ui t in terms_processing T = Ok es -> forall x n, In (Converted x n) es <-> converted T x n.
Proof. intro P. destruct (parse_expand t P) as [A B]. exact (converted_ok _ A B es). Qed.
Theorem tree_told t es : parse_tree t -> let T := expand_bahe_ui t in terms_processing T = Ok es -> forall y, In (NoGloss y) es <-> told T y.
Proof. intro P. destruct (parse_expand t P) as [A B]. exact (told_ok _ A B es). Qed.
Theorem tree_refer t es : parse_tree t -> let T := expand_bahe_ui t in terms_processing T = Ok es -> forall x l, In (Tagged x l) es ->
  (exists ch, subtree T x = Some (NT "TERM" ch)) /\ refers T (fun q => In (Brackets q) es) l /\ (1 <= place_of l <= 19)%Z.
Proof. intro P. destruct (parse_expand t P) as [A B]. exact (labels_refer _ A B es). Qed.

(* for the examples *)
Definition moi_without (es : list effect) : bool :=
  existsb (fun e => match e with
    | Tagged _ (TTT_NUMBERMOI q _ _) => negb (existsb (fun f => match f with Brackets q' => if list_eq_dec Nat.eq_dec q' q then true else false | _ => false end) es)
    | _ => false end) es.
Lemma moi_without_ok es : moi_without es = true -> exists x q r n, In (Tagged x (TTT_NUMBERMOI q r n)) es /\ ~ In (Brackets q) es.
Proof.
  unfold moi_without. intro H. apply existsb_exists in H. destruct H as ([x l|? ?|?|?|?] & I & H); try discriminate H. destruct l as [| | | |q r n| | |]; try discriminate H.
  exists x, q, r, n. split; [exact I |]. intro J. apply negb_true_iff in H. rewrite <- not_true_iff_false in H. apply H. apply existsb_exists. exists (Brackets q). split; [exact J |].
  destruct (list_eq_dec Nat.eq_dec q q); [reflexivity | congruence].
Qed.
Lemma processed {A} (f : list effect -> A) o v : (do es <- o; Ok (f es)) = Ok v -> exists es, o = Ok es /\ f es = v.
Proof. destruct o as [es| | | |]; cbn [obind]; intro H; try discriminate H. injection H as H. eauto. Qed.
