(* The walk of terms.c: labels and conversions. *)
From Coq Require Import String List NArith ZArith Bool Arith Lia.
From Verif Require Import Base TokData CmavoData TokModel TreeModel GramModel GramSpec ConvSpec TermsModel TermsSpec TermsProofs TermsProofs2
  WalkModel WalkSpec WalkProofs WalkProofs2 WalkProofs3 WalkProofs4 WalkProofs5 WalkProofs6.
From Verif Require OutModel PassModel.
Import OutModel(term_tag, TTT_BRIVLA, TTT_JAITAG, TTT_ABSTRACTION, TTT_ME, TTT_NUMBERMOI, TTT_GOhA, TTT_NUhA, TTT_ZEI).
Import ListNotations.
Open Scope string_scope.
Open Scope list_scope.

Lemma marked_ok p w : Forall term_ok (marked p w).
Proof.
  unfold marked. destruct (String.eqb w "fi'a"); [repeat constructor |]. cbn [fa_words flat_map fst snd].
  repeat (match goal with |- context [String.eqb ?a w] => destruct (String.eqb a w) end; cbn [app]); repeat (constructor; [cbn [term_ok]; lia |]); constructor.
Qed.
Lemma sort_ok x : Forall term_ok (sort x).
Proof.
  unfold sort. destruct (snd x) as [n|k [|[n|k' cc] ch]]; try constructor. destruct (String.eqb k' "TERM_PLAIN_SUMTI"); [repeat constructor |].
  destruct (String.eqb k' "TERM_PLACED_SUMTI").
  - destruct cc as [|c cc]; [constructor |]. destruct (word c) as [[r n]|]; [apply marked_ok | constructor].
  - destruct (among _ _); repeat constructor.
Qed.
Lemma sorts_ok l : Forall term_ok (sorts l).
Proof. induction l as [|x l IH]; [constructor |]. cbn [sorts flat_map]. apply Forall_app. split; [apply sort_ok | exact IH]. Qed.

Definition args_ok (a : args) : Prop := let '(pre, post, lc) := a in Forall term_ok pre /\ Forall term_ok post /\ Forall link_ok (map fst lc).
Lemma step_ok T p a i b : step T p a i b -> args_ok a -> args_ok b.
Proof.
  intros S1. destruct S1 as [| | | |p c la pre post lc E|p c rest i r x n pre post lc E WX I K| |]; unfold args_ok; try tauto; try (destruct a as [[pre post] lc]; tauto).
  - intros (A & B & C). split; [exact A |]. split; [constructor | exact C].
  - intros (A & B & C). split; [constructor |]. auto.
  - intros (A & B & C). split; [exact A |]. split; [exact B |]. rewrite map_app. apply Forall_app. split; [exact C |]. constructor; [apply sorts_ok | constructor].
  - intros (A & B & C). split; [exact A |]. split; [exact B |]. rewrite map_app. apply Forall_app. split; [exact C |]. constructor; [| constructor].
    cbn [fst link_ok]. cbn [In] in I. destruct I as [I|[I|[I|[I|[]]]]]; injection I as _ <-; lia.
  - intros (A & B & C). split; [exact A |]. split; [exact B |]. rewrite map_app. apply Forall_app. split; [exact C |]. repeat constructor.
  - intros (A & B & C). split; [exact A |]. split; [exact B |]. rewrite map_app. apply Forall_app. split; [exact C |]. repeat constructor.
Qed.
Lemma down_ok T p a q b : down T p a q b -> args_ok a -> args_ok b.
Proof. induction 1; intro A; [exact A |]. eauto using step_ok. Qed.
Lemma source_ok T s a : source T s a -> args_ok a.
Proof.
  intros [B|[_ ->]]; [| repeat constructor]. destruct B as [p k ch E A|]; [| repeat constructor]. split; [apply sorts_ok |]. split; [apply sorts_ok | constructor].
Qed.

(* ---------- labels ---------- *)

Lemma label_name mk f g : same f g -> label mk f = Tagged (fst (fst g)) (name mk (snd g)).
Proof.
  intros [A (t & B)]. unfold label, name. rewrite A, B. unfold stored. cbn [pl_type pl_pos]. destruct (fst (snd g)); reflexivity.
Qed.
Lemma places_labels pre post lc mk es out : args_ok (pre, post, lc) -> give_places pre post lc mk = Ok es -> observed pre post (map fst lc) out ->
  forall x t, In (Tagged x t) es <-> exists n p, In (x, n, p) out /\ t = name mk p.
Proof.
  intros (T1 & T2 & K) R O x t. unfold give_places in R. oinv R. injection R as <-.
  destruct (assign_places_ok _ _ _ _ T1 T2 K O) as [(_ & _ & xs & A & S1)|(_ & A)]; rewrite E in A; [| discriminate A]. injection A as ->. clear - S1.
  induction S1 as [|f [[y n] p] xs out SM S1 IH].
  - cbn [map In]. split; [intros [] |]. intros (n & p & [] & _).
  - cbn [map In]. rewrite IH, (label_name mk _ _ SM). cbn [fst snd]. split.
    + intros [Q|(n' & p' & I & Q)]; [injection Q as -> <-; eauto | eauto].
    + intros (n' & p' & [Q|I] & ->); [injection Q as -> -> ->; auto | right; eauto].
Qed.
Lemma conversion_not_tagged lc x es y t : give_conversion lc x = Ok es -> ~ In (Tagged y t) es.
Proof.
  unfold give_conversion. intros R I. oinv R. injection R as <-. apply in_app_iff in I. destruct I as [I|[I|[]]]; [| discriminate I].
  induction (rev lc) as [|[[v|n| |tt uu] q] l IH]; cbn [silent In] in I; auto. destruct I as [I|I]; [discriminate I | auto].
Qed.

Section MAIN.
  Variable T : tree.
  Hypothesis PT : parsed T.
  Hypothesis CT : is_nt "CHUNKS" T = true.
  Variable es : list effect.
  Hypothesis R : terms_processing T = Ok es.

  Theorem labels_ok x t : In (Tagged x t) es <-> called T x t.
  Proof.
    rewrite (terms_effects T PT CT es R). split.
    - intros (s & a & SO & q & b & D & O). pose proof (terms_good T PT CT es s a R SO) as G.
      inversion O as [| |q0 pre post lc mk conv e N H|q0 pre post lc mk y e N H| | |]; subst.
      + destruct (G _ _ _ _ _ _ D N) as [(es' & GP) _]. pose proof (down_ok _ _ _ _ _ D (source_ok _ _ _ SO)) as AO.
        pose proof AO as (T1 & T2 & K). destruct (bridi_total _ jai_shown true (fun p => (PT_ORD, p)) pre post (map fst lc) T1 T2 K) as (out & OB).
        pose proof (H _ GP) as I. apply (places_labels _ _ _ _ _ out AO GP OB) in I. destruct I as (n & p & I & ->).
        exists s, a, q, pre, post, lc, mk, conv, out, n, p. auto 10.
      + destruct (G _ _ _ _ _ _ D N) as [_ GC]. destruct (GC _ eq_refl) as (es' & GP). destruct (conversion_not_tagged _ _ _ _ _ GP (H _ GP)).
    - intros (s & a & q & pre & post & lc & mk & conv & out & n & p & SO & D & N & OB & I & ->). exists s, a. split; [exact SO |].
      exists q, (pre, post, lc). split; [exact D |]. eapply own_place; [exact N |]. intros es' GP.
      apply (places_labels _ _ _ _ _ out (down_ok _ _ _ _ _ D (source_ok _ _ _ SO)) GP OB). eauto.
  Qed.
End MAIN.

(* ---------- conversions ---------- *)

Definition shows (pl : list place) (g : nat -> nat) : Prop := List.length pl = 20 /\ forall k, k < 20 -> option_map pl_pos (nth_error pl k) = Some (g k).
Definition turn (e : link_conv) (g : nat -> nat) : nat -> nat := match e with LC_SE c => fun k => g (transpose 1 c k) | _ => g end.
Lemma turn_shows c pl g : 2 <= c <= 5 -> shows pl g ->
  exists pl', (do p1 <- get pl 1; do pc <- get pl c; do pl <- set pl 1 pc; set pl c p1) = Ok pl' /\ shows pl' (fun k => g (transpose 1 c k)).
Proof.
  intros C (L & G). unfold get, set. destruct (nth_error pl 1) as [p1|] eqn:E1; [| apply nth_error_None in E1; lia].
  destruct (nth_error pl c) as [pc|] eqn:Ec; [| apply nth_error_None in Ec; lia]. cbn [obind]. rewrite L. change (Nat.ltb 1 20) with true. cbn [obind].
  rewrite upd_length, L. replace (Nat.ltb c 20) with true by (symmetry; apply Nat.ltb_lt; lia). eexists. split; [reflexivity |].
  split; [rewrite !upd_length; exact L |]. intros k K. rewrite !upd_nth, !upd_length, L. unfold transpose.
  pose proof (G 1 ltac:(lia)) as G1. pose proof (G c ltac:(lia)) as Gc. rewrite E1 in G1. rewrite Ec in Gc. cbn [option_map] in G1, Gc.
  destruct (Nat.eqb_spec c k) as [->|N1].
  - replace (Nat.ltb k 20) with true by (symmetry; apply Nat.ltb_lt; lia). destruct (Nat.eqb_spec k 1); [lia |]. rewrite Nat.eqb_refl. exact G1.
  - destruct (Nat.eqb_spec 1 k) as [<-|N2]; [rewrite Nat.eqb_refl; exact Gc |]. destruct (Nat.eqb_spec k 1); [lia |]. destruct (Nat.eqb_spec k c); [lia |]. apply G. exact K.
Qed.
Definition tagged (e : link_conv) : bool := match e with LC_TAG _ _ => true | _ => false end.
Definition stops (l : list link_conv) : Prop := match l with [] => True | e :: _ => tagged e = true end.
Lemma conv_places_ok l : forall pl g rest, Forall link_ok l -> existsb tagged l = false -> stops rest -> shows pl g ->
  exists pl', conv_places (l ++ rest) pl = Ok pl' /\ shows pl' (fold_left (fun g e => turn e g) l g).
Proof.
  induction l as [|e l IH]; intros pl g rest K NT ST SH; cbn [app fold_left].
  - exists pl. split; [| exact SH]. destruct rest as [|e rest]; [reflexivity |]. destruct e; try discriminate ST. reflexivity.
  - cbn [existsb] in NT. apply orb_false_iff in NT. destruct NT as [N1 N2]. inversion K as [|? ? K1 K2]; subst. destruct e as [v|c| |t u]; try discriminate N1; cbn [conv_places].
    + apply IH; assumption.
    + destruct (turn_shows c pl g K1 SH) as (pl' & Q & SH'). destruct (IH pl' _ rest K2 N2 ST SH') as (pl2 & Q2 & SH2). exists pl2. split; [| exact SH2].
      oinv Q. rewrite E. cbn [obind]. oinv Q. rewrite E0. cbn [obind]. oinv Q. rewrite E1. cbn [obind]. rewrite Q. cbn [obind]. exact Q2.
    + apply IH; assumption.
Qed.
Lemma place_turn l : Forall link_ok (map fst l) -> forall k, ConvSpec.place (exchanges l) k = Some (fold_left (fun g e => turn e g) (rev (map fst l)) (fun k => k) k).
Proof.
  induction l as [|[e n] l IH]; intros K k; [reflexivity |]. cbn [map fst rev] in *. inversion K as [|? ? K1 K2]; subst. rewrite fold_left_app. cbn [fold_left].
  destruct e as [v|c| |t u]; cbn [exchanges flat_map fst app turn ConvSpec.place]; apply IH; exact K2.
Qed.
Lemma init_shows : shows init_places (fun k => k).
Proof. split; [reflexivity |]. intros k K. do 20 (destruct k as [|k]; [reflexivity |]). lia. Qed.
Lemma silent_app l rest : existsb is_tag l = false -> (rest = [] \/ exists t r, rest = t :: r /\ is_tag t = true) ->
  forall e, In e (silent (l ++ rest)) <-> exists n y, e = NoGloss y /\ In (LC_SE n, y) l.
Proof.
  intros NT ST e. induction l as [|[x n] l IH]; cbn [app].
  - split; [| intros (m & y & _ & [])]. destruct ST as [->|([t n] & r & -> & Q)]; [intros [] |]. destruct t; try discriminate Q. intros [].
  - cbn [existsb] in NT. apply orb_false_iff in NT. destruct NT as [N1 N2]. specialize (IH N2).
    destruct x as [v|c| |t u]; cbn [is_tag fst] in N1; try discriminate N1; cbn [silent In]; rewrite IH.
    + split; [intros (m & y & -> & I); eauto | intros (m & y & -> & [Q|I]); [discriminate Q | eauto]].
    + split; [intros [<-|(m & y & -> & I)]; eauto | intros (m & y & -> & [Q|I]); [injection Q as _ ->; auto | eauto]].
    + split; [intros (m & y & -> & I); eauto | intros (m & y & -> & [Q|I]); [discriminate Q | eauto]].
Qed.
Lemma inside_exists lc : exists l, inside lc l.
Proof.
  induction lc as [|e lc (l & N & D)]; [exists []; split; auto |]. destruct D as [->|(l1 & t & -> & TT)].
  - destruct (is_tag e) eqn:Q; [exists l; split; [exact N | right; exists [], e; auto] | exists (e :: l); split; [cbn [existsb]; rewrite Q; exact N | auto]].
  - exists l. split; [exact N |]. right. exists (e :: l1), t. auto.
Qed.
Lemma tagged_fst l : existsb tagged (map fst l) = existsb is_tag l.
Proof. induction l as [|[e n] l IH]; [reflexivity |]. cbn [map existsb]. rewrite IH. destruct e; reflexivity. Qed.
Lemma existsb_rev {A} (f : A -> bool) l : existsb f (rev l) = existsb f l.
Proof.
  apply eq_true_iff_eq. rewrite !existsb_exists. split; intros (x & I & Q); exists x; (split; [| exact Q]); [rewrite in_rev; exact I | rewrite <- in_rev; exact I].
Qed.
Lemma conversion_ok lc l x : Forall link_ok (map fst lc) -> inside lc l ->
  exists n es, ConvSpec.place (exchanges l) 1 = Some n /\ give_conversion lc x = Ok es /\
    forall e, In e es <-> e = Converted x n \/ exists m y, e = NoGloss y /\ In (LC_SE m, y) l.
Proof.
  intros K (NT & D). assert (Q : exists rest, rev lc = rev l ++ rest /\ (rest = [] \/ exists t r, rest = t :: r /\ is_tag t = true) /\ Forall link_ok (map fst l)).
  { destruct D as [->|(l1 & t & -> & TT)].
    - exists []. rewrite app_nil_r. auto.
    - exists (t :: rev l1). split; [rewrite rev_app_distr; cbn [rev]; rewrite <- app_assoc; reflexivity |]. split; [right; eauto |].
      rewrite map_app in K. apply Forall_app in K. destruct K as [_ K]. inversion K; assumption. }
  destruct Q as (rest & ER & SR & KL).
  assert (ST : stops (map fst rest)) by (destruct SR as [->|([t n] & r & -> & TT)]; [exact I | destruct t; try discriminate TT; reflexivity]).
  assert (EM : rev (map fst lc) = rev (map fst l) ++ map fst rest) by (rewrite <- !map_rev, ER, map_app; reflexivity).
  assert (KR : Forall link_ok (rev (map fst l))) by (apply Forall_rev; exact KL).
  assert (NR : existsb tagged (rev (map fst l)) = false) by (rewrite existsb_rev, tagged_fst; exact NT).
  destruct (conv_places_ok _ init_places _ (map fst rest) KR NR ST init_shows) as (pl & CP & (L & G)).
  specialize (G 1 ltac:(lia)). destruct (nth_error pl 1) as [p1|] eqn:N1; [| discriminate G]. cbn [option_map] in G. injection G as G.
  exists (pl_pos p1), (silent (rev lc) ++ [Converted x (pl_pos p1)]). split; [rewrite place_turn by exact KL; rewrite G; reflexivity |]. split.
  - unfold give_conversion, assign_conversion. rewrite EM, CP. cbn [obind]. unfold get. rewrite N1. reflexivity.
  - intro e. rewrite in_app_iff, ER. rewrite (silent_app (rev l) rest (eq_trans (existsb_rev _ _) NT) SR). cbn [In].
    split.
    + intros [(m & y & -> & I)|[<-|[]]]; [right; exists m, y; rewrite in_rev; auto | auto].
    + intros [->|(m & y & -> & I)]; [auto | left; exists m, y; rewrite <- in_rev; auto].
Qed.

Lemma places_only_labels pre post lc mk es e : give_places pre post lc mk = Ok es -> In e es -> exists x t, e = Tagged x t.
Proof. unfold give_places. intros R I. oinv R. injection R as <-. apply in_map_iff in I. destruct I as (f & <- & _). unfold label. eauto. Qed.
Section CONV.
  Variable T : tree.
  Hypothesis PT : parsed T.
  Hypothesis CT : is_nt "CHUNKS" T = true.
  Variable es : list effect.
  Hypothesis R : terms_processing T = Ok es.

  Definition by_conv (e : effect) : bool := match e with Converted _ _ | NoGloss _ => true | _ => false end.
  Lemma conv_effects e : by_conv e = true ->
    (In e es <-> exists s a q pre post lc l mk x, source T s a /\ down T s a q (pre, post, lc) /\ names T q mk (Some x) /\ inside lc l /\
       exists n, ConvSpec.place (exchanges l) 1 = Some n /\ (e = Converted x n \/ exists m y, e = NoGloss y /\ In (LC_SE m, y) l)).
  Proof.
    intro BC. rewrite (terms_effects T PT CT es R). split.
    - intros (s & a & SO & q & b & D & O). pose proof (terms_good T PT CT es s a R SO) as G.
      inversion O as [| |q0 pre post lc mk conv e0 N H|q0 pre post lc mk x e0 N H| | |]; subst; try discriminate BC.
      + destruct (G _ _ _ _ _ _ D N) as [(es' & GP) _]. destruct (places_only_labels _ _ _ _ _ _ GP (H _ GP)) as (x & t & ->). discriminate BC.
      + destruct (down_ok _ _ _ _ _ D (source_ok _ _ _ SO)) as (_ & _ & K). destruct (inside_exists lc) as (l & IN).
        destruct (conversion_ok lc l x K IN) as (n & es' & PL & GC & I). exists s, a, q, pre, post, lc, l, mk, x. do 4 (split; [assumption |]).
        exists n. split; [exact PL |]. apply I. apply H. exact GC.
    - intros (s & a & q & pre & post & lc & l & mk & x & SO & D & N & IN & n & PL & Q). exists s, a. split; [exact SO |]. exists q, (pre, post, lc). split; [exact D |].
      eapply own_conv; [exact N |]. intros es' GC. destruct (down_ok _ _ _ _ _ D (source_ok _ _ _ SO)) as (_ & _ & K).
      destruct (conversion_ok lc l x K IN) as (n' & es2 & PL' & GC' & I). rewrite GC in GC'. injection GC' as <-. rewrite PL in PL'. injection PL' as <-. apply I. exact Q.
  Qed.
  Theorem converted_ok x n : In (Converted x n) es <-> converted T x n.
  Proof.
    rewrite (conv_effects (Converted x n) eq_refl). split.
    - intros (s & a & q & pre & post & lc & l & mk & y & SO & D & N & IN & m & PL & [Q|(j & z & Q & _)]); [injection Q as -> ->; exists s, a, q, pre, post, lc, l, mk; auto 8 | discriminate Q].
    - intros (s & a & q & pre & post & lc & l & mk & SO & D & N & IN & PL). exists s, a, q, pre, post, lc, l, mk, x. eauto 10.
  Qed.
  Theorem told_ok y : In (NoGloss y) es <-> told T y.
  Proof.
    rewrite (conv_effects (NoGloss y) eq_refl). split.
    - intros (s & a & q & pre & post & lc & l & mk & x & SO & D & N & IN & m & PL & [Q|(j & z & Q & I)]); [discriminate Q | injection Q as ->].
      exists s, a, q, pre, post, lc, l, mk, x, j. auto 8.
    - intros (s & a & q & pre & post & lc & l & mk & x & n & SO & D & N & IN & I). exists s, a, q, pre, post, lc, l, mk, x. do 4 (split; [assumption |]).
      destruct (down_ok _ _ _ _ _ D (source_ok _ _ _ SO)) as (_ & _ & K). destruct (conversion_ok lc l x K IN) as (m & es' & PL & _). exists m. split; [exact PL |]. right. eauto.
  Qed.
End CONV.
