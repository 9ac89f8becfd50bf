(* The lujvo maker: all candidates, the order of the output. *)
From Coq Require Import String Ascii List NArith ZArith Bool Arith Lia Permutation Sorted.
From Verif Require Import Base LujvoData LujvoModel LujvoSpec LujvoProofs LujvoProofs2 LujvoProofs3 LujvoProofs4 LujvoProofs5 LujvoProofs6 LujvoProofs7.
Import ListNotations.
Open Scope list_scope.

Lemma all_rafsi_spec o : forall words r, words <> [] -> all_rafsi o words = Ok r ->
  List.length r = List.length words /\ Forall (@NoDup cword) r /\ Forall (fun l => (List.length l <= 5)%nat) r /\
  exists gs, Forall2 typed words gs /\ Forall (fun g => In g gismu) gs /\
    (forall rs, Forall2 (fun l a => In a l) r rs <-> choices (uselong o) (allowbrod o) gs rs) /\
    (forall rs, Forall2 (fun l a => In a l) r rs -> exists l, map snd l = rs /\ parts l).
Proof.
  induction words as [|wd words IH]; intros r NE H; [contradiction|]. cbn [all_rafsi] in H.
  destruct (rafsi_for o _ wd) as [l| | | |] eqn:E1; try discriminate H. cbn [obind] in H.
  destruct (all_rafsi o words) as [r'| | | |] eqn:E2; try discriminate H. cbn [obind] in H. injection H as <-.
  apply rafsi_for_spec in E1. destruct E1 as [g [Ig [Tg [ND [L5 [Ch Fm]]]]]].
  destruct words as [|wd2 words].
  - cbn in E2. injection E2 as <-. split; [reflexivity|]. split; [auto|]. split; [auto|].
    exists [g]. split; [auto|]. split; [auto|]. split.
    + intros rs. split.
      * intros F. inversion F as [|? a ? ? Ia F']; subst. inversion F'; subst. constructor. now apply Ch.
      * intros C. inversion C; subst; [|contradiction]. constructor; [now apply Ch | constructor].
    + intros rs F. inversion F as [|? a ? ? Ia F']; subst. inversion F'; subst. destruct (Fm a Ia) as [k [Fk Kk]].
      exists [(k, a)]. split; [reflexivity|]. now constructor.
  - destruct (IH r' ltac:(discriminate) eq_refl) as [Lr [NDr [L5r [gs [Tgs [Igs [Cgs Pgs]]]]]]].
    split; [cbn; now rewrite Lr|]. split; [auto|]. split; [auto|].
    assert (NG : gs <> []) by (intros ->; inversion Tgs).
    exists (g :: gs). split; [auto|]. split; [auto|]. split.
    + intros rs. split.
      * intros F. inversion F as [|? a ? ? Ia F']; subst. constructor; auto; [now apply Ch | now apply Cgs].
      * intros C. inversion C as [|? ? ? ? ? Ho Hc]; subst; [contradiction|]. constructor; [now apply Ch | now apply Cgs].
    + intros rs F. inversion F as [|? a ? ? Ia F']; subst. destruct (Fm a Ia) as [k [Fk Kk]]. destruct (Pgs _ F') as [pl [Em Pl]].
      exists ((k, a) :: pl). split; [cbn; now rewrite Em|]. now constructor.
Qed.
Lemma max_pos : (0 < MAX_LUJVO_COUNT)%nat.
Proof. unfold MAX_LUJVO_COUNT. change 0%nat with (N.to_nat 0). apply Nat.compare_lt_iff. rewrite <- N2Nat.inj_compare. reflexivity. Qed.
Global Opaque MAX_LUJVO_COUNT.
(* what a candidate is, for one choice of rafsi *)
Definition made_of (rs : list (list ascii)) (c : cand) : Prop :=
  exists l, map snd l = rs /\ parts l /\ lujvo l (cword_of c) /\ score c = published_score l (cword_of c)
    /\ (mark c = "!"%char <-> In (text "brod") rs).
Lemma enumerated o words r : all_rafsi o words = Ok r -> (2 <= List.length words)%nat -> Forall (fun l => l <> []) r ->
  exists cs gs all, enumerate MAX_LUJVO_COUNT r (repeat 0%nat (List.length r)) = Ok (cs, Nat.leb MAX_LUJVO_COUNT (List.length all)) /\
    Forall2 typed words gs /\ Forall (fun g => In g gismu) gs /\ NoDup all /\
    (forall rs, In rs all <-> choices (uselong o) (allowbrod o) gs rs) /\
    Forall2 made_of (firstn MAX_LUJVO_COUNT all) cs /\ all = product r.
Proof.
  intros H Lw NE. destruct (all_rafsi_spec o words r) as [Lr [ND [_ [gs [Tg [Ig [Cg Pg]]]]]]]; [destruct words; [cbn in Lw; lia | discriminate] | exact H |].
  assert (A : forall rs, In rs (product r) -> exists c, candidate rs = Ok c /\ made_of rs c).
  { intros rs I. apply product_in in I. destruct (Pg rs I) as [l [El Pl]].
    assert (Ll : (2 <= List.length l)%nat).
    { rewrite <- (map_length snd l), El. assert (K : List.length r = List.length rs) by (clear -I; induction I; cbn; auto). lia. }
    destruct (candidate_spec l Pl Ll) as [c [Ec [J [S B]]]]. subst rs. exists c. split; [exact Ec|]. exists l.
    split; [reflexivity|]. split; [exact Pl|]. split; [exact J|]. split; [exact S | exact B]. }
  destruct (enumerate_spec r (fun rs I => let (c, p) := A rs I in ex_intro _ c (proj1 p)) MAX_LUJVO_COUNT (repeat 0%nat (List.length r))) as [cs [Ecs Fcs]].
  - exact max_pos.
  - clear -NE. induction NE as [|x r Hx Hr IH]; cbn; constructor; auto. destruct x; [contradiction|]. cbn. lia.
  - assert (Z0 : rank (map (@List.length _) r) (repeat 0%nat (List.length r)) = 0%nat).
    { clear. induction r as [|x r IH]; cbn [map List.length repeat rank]; [reflexivity|]. rewrite IH. lia. }
    rewrite Z0 in Ecs, Fcs. cbn [skipn] in Ecs, Fcs. exists cs, gs, (product r). split; [exact Ecs|]. split; [exact Tg|]. split; [exact Ig|].
    split; [now apply product_nodup|]. split; [intros rs; rewrite product_in; apply Cg|].
    assert (I : forall rs, In rs (firstn MAX_LUJVO_COUNT (product r)) -> In rs (product r)).
    { intros rs K. rewrite <- (firstn_skipn MAX_LUJVO_COUNT). apply in_or_app. auto. }
    split; [|reflexivity]. clear -Fcs I A. revert Fcs I. generalize (firstn MAX_LUJVO_COUNT (product r)) as L.
    induction 1 as [|x c L cs Hx Hr IH]; intros I; constructor.
    + destruct (A x (I x (or_introl eq_refl))) as [c' [Ec' M]]. congruence.
    + apply IH. intros rs K. apply I. now right.
Qed.
Lemma made o words cs hit : makelujvo o words = Ok (cs, hit) ->
  (2 <= List.length words)%nat /\
  exists gs all, Forall2 typed words gs /\ Forall (fun g => In g gismu) gs /\ NoDup all /\
    (forall rs, In rs all <-> choices (uselong o) (allowbrod o) gs rs) /\
    Forall2 made_of (firstn MAX_LUJVO_COUNT all) cs /\ (hit = true <-> (MAX_LUJVO_COUNT <= List.length all)%nat).
Proof.
  unfold makelujvo. destruct (all_rafsi o words) as [r| | | |] eqn:E; try discriminate. cbn [obind].
  destruct (existsb _ r) eqn:Ex; try discriminate. destruct (Nat.ltb (List.length r) 2) eqn:L; try discriminate. intros H.
  apply Nat.ltb_ge in L.
  assert (Lw : List.length r = List.length words).
  { destruct words; [cbn in E; injection E as <-; reflexivity|]. now apply all_rafsi_spec in E. }
  assert (NE : Forall (fun l : list cword => l <> []) r).
  { rewrite Forall_forall. intros l I ->. rewrite <- not_true_iff_false in Ex. apply Ex, existsb_exists. exists []. auto. }
  split; [lia|]. destruct (enumerated o words r E ltac:(lia) NE) as [cs' [gs [all [Ee [T [Ig [ND [C [F _]]]]]]]]].
  rewrite Ee in H. injection H as -> <-. exists gs, all. split; auto. split; auto. split; auto. split; auto. split; auto. apply Nat.leb_le.
Qed.
Lemma room_ok o is_last wd l : rafsi_for o is_last wd = Ok l -> (List.length l <= 5)%nat.
Proof. intros H. apply rafsi_for_spec in H. destruct H as [g [_ [_ [_ [H _]]]]]. exact H. Qed.

(* when it does not give candidates *)
Lemma short_rafsi_ok i g : nth_error gismu i = Some g -> exists l, short_rafsi i = Ok l.
Proof.
  intros H. pose proof (row i g H) as R. unfold row_ok in R. rewrite H in R. destruct (short_rafsi i); try discriminate R. eauto.
Qed.
Lemma rafsi_for_total o is_last wd : (List.length wd <= 5)%nat ->
  (exists l g, rafsi_for o is_last wd = Ok l /\ In g gismu /\ typed wd g)
  \/ (rafsi_for o is_last wd = Exit 1 /\ forall g, In g gismu -> ~ typed wd g).
Proof.
  intros L. unfold rafsi_for. rewrite (proj2 (Nat.ltb_ge 5 (List.length wd)) L). cbv zeta.
  pose proof (lookup_spec (normal wd)) as K. destruct (lookup_gismu (normal wd)) as [i|].
  - left. destruct K as [g [Hg Wg]]. destruct (short_rafsi_ok i g Hg) as [l El]. rewrite El. cbn [obind].
    assert (Tg : typed wd g) by (unfold typed; now rewrite <- normal_typed, <- Wg).
    destruct is_last; eexists; exists g; (split; [reflexivity|]); (split; [now apply nth_error_In with i|exact Tg]).
  - right. split; auto. intros g I T. apply (K g I). unfold typed in T. rewrite normal_typed. now symmetry.
Qed.
Lemma all_rafsi_total o : forall words, Forall (fun wd => (List.length wd <= 5)%nat) words ->
  (exists r gs, all_rafsi o words = Ok r /\ Forall (fun g => In g gismu) gs /\ Forall2 typed words gs)
  \/ (all_rafsi o words = Exit 1 /\ forall gs, Forall (fun g => In g gismu) gs -> ~ Forall2 typed words gs).
Proof.
  induction 1 as [|wd words L _ IH]; cbn [all_rafsi]; [left; exists [], []; repeat constructor|].
  destruct (rafsi_for_total o (match words with [] => true | _ => false end) wd L) as [[l [g [E [Ig Tg]]]]|[E N]]; rewrite E; cbn [obind].
  - destruct IH as [[r [gs [E2 [Igs Tgs]]]]|[E2 N]]; rewrite E2; cbn [obind].
    + left. exists (l :: r), (g :: gs). auto.
    + right. split; auto. intros gs I T. inversion T as [|? ? ? ? H1 H2]; subst. inversion I; subst. eapply N; eassumption.
  - right. split; auto. intros gs I T. inversion T as [|? ? ? ? H1 H2]; subst. inversion I; subst. eapply N; eassumption.
Qed.
Lemma text_inj a b : text a = text b -> a = b.
Proof. apply w_inj. Qed.
Lemma typed_fun words : forall gs gs', Forall2 typed words gs -> Forall2 typed words gs' -> gs = gs'.
Proof.
  induction words; intros gs gs' H1 H2; inversion H1; inversion H2; subst; auto. f_equal; auto.
  apply text_inj. unfold typed in *. congruence.
Qed.
(* for words of at most five letters: candidates if there is a choice at all, and an error exit otherwise *)
Lemma made_total o words : Forall (fun wd => (List.length wd <= 5)%nat) words ->
  (exists cs hit, makelujvo o words = Ok (cs, hit) /\ (2 <= List.length words)%nat /\
     exists gs rs, Forall (fun g => In g gismu) gs /\ Forall2 typed words gs /\ choices (uselong o) (allowbrod o) gs rs)
  \/ (makelujvo o words = Exit 1 /\
      ~ ((2 <= List.length words)%nat /\ exists gs rs, Forall (fun g => In g gismu) gs /\ Forall2 typed words gs /\ choices (uselong o) (allowbrod o) gs rs)).
Proof.
  intros L5. unfold makelujvo. destruct (all_rafsi_total o words L5) as [[r [gs [E [Ig Tg]]]]|[E N]]; rewrite E; cbn [obind].
  2: { right. split; auto. intros [_ [gs [rs [I [T _]]]]]. exact (N gs I T). }
  destruct words as [|wd words].
  { cbn in E. injection E as <-. right. split; [reflexivity|]. intros [K _]. cbn in K. lia. }
  pose proof (all_rafsi_spec o (wd :: words) r ltac:(discriminate) E) as [Lr [_ [_ [gs' [Tg' [_ [Cg _]]]]]]].
  pose proof (typed_fun _ _ _ Tg Tg') as <-.
  destruct (existsb _ r) eqn:Ex.
  - right. split; auto. intros [_ [gs2 [rs [I [T C]]]]]. pose proof (typed_fun _ _ _ Tg T) as <-. apply Cg in C.
    apply existsb_exists in Ex. destruct Ex as [l [Il El]]. destruct l; [|discriminate El]. clear -C Il.
    induction C as [|l a r rs Ia C IH]; [exact Il|]. destruct Il as [->|Il]; [exact Ia | exact (IH Il)].
  - destruct (Nat.ltb (List.length r) 2) eqn:L.
    + right. split; auto. apply Nat.ltb_lt in L. intros [K _]. lia.
    + apply Nat.ltb_ge in L. left.
      assert (NE : Forall (fun l : list cword => l <> []) r).
      { rewrite Forall_forall. intros l I ->. rewrite <- not_true_iff_false in Ex. apply Ex, existsb_exists. exists []. auto. }
      destruct (enumerated o (wd :: words) r E ltac:(lia) NE) as [cs [gs2 [all [Ee _]]]].
      exists cs, (Nat.leb MAX_LUJVO_COUNT (List.length all)). split; [exact Ee|]. split; [lia|].
      assert (exists rs, Forall2 (fun l a => In a l) r rs) as [rs F].
      { clear -NE. induction NE as [|x r Hx Hr [rs IH]]; [exists []; constructor|]. destruct x as [|a x]; [contradiction|].
        exists (a :: rs). constructor; auto. now left. }
      exists gs, rs. split; auto. split; auto. now apply Cg.
Qed.
Lemma made_long o wd words : (5 < List.length wd)%nat -> makelujvo o (wd :: words) = UB UB_bounds.
Proof. intros L. unfold makelujvo. cbn [all_rafsi]. unfold rafsi_for. apply Nat.ltb_lt in L. rewrite L. reflexivity. Qed.

(* ---- the order ---- *)
Definition by_score (a b : cand) : Prop := (score a <= score b)%Z.
Definition same_word (a b : cand) : Prop := cword_of a = cword_of b /\ score a = score b.
Lemma ties_same best m l : Forall2 same_word l (ties best m l).
Proof.
  assert (R : forall l, Forall2 same_word l l) by (induction l0; constructor; auto; now split).
  induction l as [|x l IH]; cbn [ties]; [constructor|]. destruct (score x =? best)%Z; [|apply R].
  constructor; auto. destruct (ceq m "!"); now split.
Qed.
Lemma stars_same l : Forall2 same_word l (stars l).
Proof. destruct l as [|x l]; cbn [stars]; [constructor|]. cbv zeta. constructor; [destruct (ceq (mark x) "!"); now split | apply ties_same]. Qed.
Lemma sorted_same l l' : Forall2 same_word l l' -> StronglySorted by_score l -> StronglySorted by_score l'.
Proof.
  induction 1 as [|x y l l' [_ E] F IH]; intros S; inversion S; subst; constructor; auto.
  clear -E F H2. induction F as [|a b l l' [_ E2] F IH]; constructor; inversion H2; subst; auto. unfold by_score in *. lia.
Qed.
Lemma sorted_app_le l1 l2 : StronglySorted by_score (l1 ++ l2) -> StronglySorted by_score l1 /\ forall a b, In a l1 -> In b l2 -> by_score a b.
Proof.
  induction l1 as [|x l1 IH]; cbn; intros S; [split; [constructor | intros a b []]|].
  inversion S as [|? ? S' F]; subst. destruct (IH S') as [S1 H]. rewrite Forall_forall in F. split.
  - constructor; auto. rewrite Forall_forall. intros y Iy. apply F, in_or_app. auto.
  - intros a b [<-|Ia] Ib; auto. apply F, in_or_app. auto.
Qed.
Lemma ties_mark best m l y : StronglySorted by_score l -> In y (ties best m l) -> mark y = "*"%char -> (forall x, In x l -> mark x <> "*"%char) -> score y = best.
Proof.
  induction l as [|x l IH]; cbn [ties]; intros S I M N; [destruct I|].
  destruct (score x =? best)%Z eqn:E.
  - apply Z.eqb_eq in E. destruct I as [<-|I].
    + destruct (ceq m "!"); exact E.
    + inversion S; subst. apply IH; auto. intros z Iz. apply N. now right.
  - exfalso. apply (N y I M).
Qed.
Lemma shown_spec o cs sorted : Permutation cs sorted -> StronglySorted by_score sorted ->
  StronglySorted by_score (shown o sorted) /\
  (exists first rest, Permutation cs (first ++ rest) /\ Forall2 same_word first (shown o sorted) /\
     (forall a b, In a first -> In b rest -> (score a <= score b)%Z) /\
     (showall o = true -> rest = []) /\ (showall o = false -> List.length first = Nat.min 8 (List.length cs))) /\
  ((forall c, In c cs -> mark c <> "*"%char) ->
   forall y, In y (shown o sorted) -> mark y = "*"%char -> forall c, In c cs -> (score y <= score c)%Z).
Proof.
  intros P S. pose proof (stars_same sorted) as F. pose proof (sorted_same _ _ F S) as S'.
  split; [|split].
  - unfold shown. destruct (showall o); auto. rewrite <- (firstn_skipn MAX_LUJVO_SHOWN (stars sorted)) in S'. now apply sorted_app_le in S'.
  - unfold shown. destruct (showall o).
    + exists sorted, []. rewrite app_nil_r. split; auto. split; auto. split; [intros a b _ []|]. split; auto. discriminate.
    + exists (firstn MAX_LUJVO_SHOWN sorted), (skipn MAX_LUJVO_SHOWN sorted). rewrite firstn_skipn. split; auto.
      split; [|split; [|split]].
      * clear -F. generalize MAX_LUJVO_SHOWN as n. induction F; intros [|n]; cbn; constructor; auto.
      * rewrite <- (firstn_skipn MAX_LUJVO_SHOWN sorted) in S. now apply sorted_app_le in S.
      * discriminate.
      * intros _. rewrite firstn_length, (Permutation_length P). reflexivity.
  - intros N y I M c Ic. assert (I' : In y (stars sorted)).
    { unfold shown in I. destruct (showall o); auto. rewrite <- (firstn_skipn MAX_LUJVO_SHOWN). apply in_or_app. auto. }
    apply (Permutation_in _ P) in Ic. assert (N' : forall x, In x sorted -> mark x <> "*"%char) by (intros x Ix; apply N, (Permutation_in _ (Permutation_sym P) Ix)).
    clear -I' M Ic N' S. destruct sorted as [|x l]; [destruct Ic|]. cbn [stars] in I'. cbv zeta in I'.
    assert (B : score y = score x).
    { destruct I' as [<-|I'].
      - destruct (ceq (mark x) "!"); reflexivity.
      - inversion S; subst. apply ties_mark in I'; auto. { rewrite I'. destruct (ceq (mark x) "!"); reflexivity. } intros z Iz. apply N'. now right. }
    rewrite B. inversion S as [|? ? S' F]; subst. rewrite Forall_forall in F. destruct Ic as [<-|Ic]; [lia | now apply F].
Qed.
