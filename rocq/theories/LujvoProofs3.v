(* The lujvo checker: the beginning of a word, and the exact set of words accepted. *)
From Coq Require Import String Ascii List NArith ZArith Bool Arith Lia.
From Verif Require Import Base LujvoData LujvoModel LujvoSpec LujvoProofs LujvoProofs2.
Import ListNotations.
Open Scope list_scope.

Definition fine (o : outcome bool) : Prop := (exists b, o = Ok b) \/ o = UB UB_uninit.
Lemma ivl_end_fine nr sc hr fc : fine (ivl_end nr sc hr fc).
Proof. unfold ivl_end. destruct sc; [|left; eauto]. destruct (Nat.eqb nr 2); [|left; eauto]. destruct fc; [left; eauto | right; auto]. Qed.
Lemma skipn_len {A} n (t : list A) : List.length (skipn n t) = (List.length t - n)%nat.
Proof. apply skipn_length. Qed.
Lemma ivl_fine fuel : forall t nr sc hr fc, (0 < List.length t < fuel)%nat -> fine (ivl fuel t nr sc hr fc).
Proof.
  induction fuel as [|fuel IH]; intros t nr sc hr fc L; [lia|]. cbn [ivl].
  assert (Next : forall n sc hr fc, (0 < n)%nat -> fine (match skipn n t with [] => ivl_end (S nr) sc hr fc | c :: t' => ivl fuel (c :: t') (S nr) sc hr fc end)).
  { intros n sc' hr' fc' Hn. destruct (skipn n t) as [|x r] eqn:E; [apply ivl_end_fine|]. apply IH. rewrite <- E, skipn_len.
    assert (List.length (skipn n t) = S (List.length r)) by now rewrite E. rewrite skipn_len in H. lia. }
  assert (F : forall b, fine (Ok b)) by (left; eauto).
  assert (Smabru : forall (first : bool) (buf : list ascii) (k : bool -> outcome bool), (0 < List.length buf < fuel)%nat -> (forall b, fine (k b)) ->
    fine (obind (if first then ivl fuel buf 0 false false None else Ok false) k)).
  { intros first buf k Lb K. destruct first; [|cbn [obind]; apply K].
    destruct (IH buf 0%nat false false None Lb) as [[b E]|E]; rewrite E; cbn [obind]; [apply K | right; reflexivity]. }
  repeat match goal with
  | |- fine (if ?b then _ else _) => destruct b eqn:?
  | |- fine (Ok _) => apply F
  end; try (apply Next; lia).
  - apply Smabru; [|intros b; match goal with |- fine (if ?c then _ else _) => destruct c end; [apply F | apply Next; lia]].
    cbn [List.length]. rewrite skipn_len. match goal with H : Nat.ltb _ 6 = false |- _ => apply Nat.ltb_ge in H; lia end.
  - apply Smabru; [|intros b; match goal with |- fine (if ?c then _ else _) => destruct c end; [apply F | apply Next; lia]].
    rewrite skipn_len.
    match goal with H : is_cvc t = true |- _ => unfold is_cvc in H; rewrite !andb_true_iff in H; destruct H as [[[H _] _] _]; apply Nat.leb_le in H; lia end.
Qed.
Lemma ivl_end_ok nr hr fc : ivl_end nr false hr fc = Ok true.
Proof. reflexivity. Qed.
(* without an initial CVV nothing is left unset *)
Lemma ivl_ok fuel : forall t nr hr fc, (0 < nr)%nat -> (List.length t < fuel)%nat -> exists b, ivl fuel t nr false hr fc = Ok b.
Proof.
  induction fuel as [|fuel IH]; intros t nr hr fc Hnr L; [lia|]. cbn [ivl].
  assert (Enr : Nat.eqb nr 0 = false) by (apply Nat.eqb_neq; lia). rewrite Enr. cbn [obind andb].
  assert (Next : forall n hr fc, (0 < n)%nat -> exists b, match skipn n t with [] => ivl_end (S nr) false hr fc | c :: t' => ivl fuel (c :: t') (S nr) false hr fc end = Ok b).
  { intros n hr' fc' Hn. destruct (skipn n t) as [|x r] eqn:E; [eexists; apply ivl_end_ok|]. apply IH; [lia|].
    assert (List.length (skipn n t) = S (List.length r)) by now rewrite E. rewrite skipn_len in H. cbn [List.length]. lia. }
  repeat match goal with
  | |- exists b, (if ?c then _ else _) = _ => destruct c
  | |- exists b, Ok _ = _ => eexists; reflexivity
  end; apply Next; lia.
Qed.

Lemma form_smalls k p : form k p -> smalls p.
Proof. destruct 1; know; sm. reflexivity. Qed.
Lemma smalls_app a b : smalls a -> smalls b -> smalls (a ++ b).
Proof. intros. apply Forall_app. auto. Qed.
Lemma smalls_y b : smalls (y_if b).
Proof. destruct b; sm. reflexivity. Qed.
Lemma lax_smalls l : parts_lax l -> smalls (joined l).
Proof.
  induction 1 as [k p _ F | a b v c u | k p l _ F P IH].
  - now apply form_smalls with k.
  - cbn [joined snd]. know. sm.
  - destruct l as [|y l]; [now apply form_smalls with k|]. rewrite joined_cons. cbn [snd].
    apply smalls_app; [now apply form_smalls with k|]. now apply smalls_app; [apply smalls_y|].
Qed.
Lemma lax_long l : parts_lax l -> (3 <= List.length (joined l))%nat.
Proof. intros P. destruct (lax_head l P) as [a [b [c [r [E _]]]]]. rewrite E. cbn [List.length]. lia. Qed.

Ltac start := cbn [ivl]; unfold is_cvccv, is_ccvcv, is_cvccy, is_ccvcy, is_cvc, is_cvv, is_cvav, is_ccv, C, V;
  red_at; destruct y_not as [? [? [? ?]]]; destruct apos_not as [? [? [? [? [? ?]]]]].

(* words beginning with CCV, CCVC, CVCC *)
Lemma first_plain k p l fuel : k = CCV \/ k = CCVC \/ k = CVCC -> form k p -> parts_lax l ->
  (List.length (joined ((k, p) :: l)) < fuel)%nat -> ivl fuel (joined ((k, p) :: l)) 0 false false None = Ok true.
Proof.
  intros Hk F P L. destruct fuel as [|fuel]; [lia|].
  destruct (lax_head l P) as [x [y [z [r [E [Hx [Hy _]]]]]]].
  assert (Hy' : ceq y "y" = false) by (destruct Hy as [Hy|Hy]; [destruct (cons_facts _ Hy) | destruct (vow_facts _ Hy)]; tauto).
  rewrite (joined_more k p l x y (z :: r) P E) in L |- *. rewrite app_length in L.
  pose proof (fun fuel fc => ivl_tail_ok l P fuel 1 false false fc ltac:(lia)) as T. rewrite E in T. unfold ivl_end in T.
  destruct Hk as [-> | [-> | ->]]; inversion F; subst; know; unfold y_before in *; cbn [y_if app List.length] in L |- *;
    start; use; rewrite ?Ascii.eqb_refl; cbn [andb negb orb]; apply T; cbn [List.length]; lia.
Qed.

Lemma ivl_sound1 fuel t sc hr fc : ivl fuel t 1 sc hr fc = Ok true -> smalls t ->
  exists l, parts_lax l /\ t = joined l /\ ivl_end (1 + List.length l) sc hr (fc_after l fc) = Ok true.
Proof. intros H S. now apply ivl_sound with fuel; [lia|..]. Qed.

(* the test on what is left when a leading CV is dropped *)
Lemma alone a b r fuel : cons a = true -> cons b = true -> smalls (a :: b :: r) -> (1 < List.length r)%nat ->
  (List.length (a :: b :: r) < fuel)%nat ->
  exists s, ivl fuel (a :: b :: r) 0 false false None = Ok s /\ (s = true <-> on_its_own_lax (a :: b :: r)).
Proof.
  intros Ha Hb S Lr L. destruct fuel as [|fuel]; [lia|].
  assert (Compl : on_its_own_lax (a :: b :: r) -> ivl (Datatypes.S fuel) (a :: b :: r) 0 false false None = Ok true).
  { intros [k [p [l [Hk [Hl [P E]]]]]]. rewrite E in L |- *. inversion P; subst; try congruence.
    apply first_plain; tauto. }
  assert (Sound : ivl (Datatypes.S fuel) (a :: b :: r) 0 false false None = Ok true -> on_its_own_lax (a :: b :: r)).
  { clear Compl. intros H. cbn [ivl] in H. know.
    assert (N1 : is_cvccv (a :: b :: r) = false) by (unfold is_cvccv, C, V; red_at; use; now rewrite !andb_false_r).
    assert (N2 : is_cvccy (a :: b :: r) = false) by (unfold is_cvccy, C, V; red_at; use; now rewrite !andb_false_r).
    assert (N3 : is_cvc (a :: b :: r) = false) by (unfold is_cvc, C, V; red_at; use; now rewrite !andb_false_r).
    assert (N4 : is_cvv (a :: b :: r) = false) by (unfold is_cvv, C, V; red_at; use; now rewrite !andb_false_r).
    assert (N5 : is_cvav (a :: b :: r) = false) by (unfold is_cvav, C, V; red_at; use; now rewrite !andb_false_r).
    rewrite N1, N2, N3, N4, N5, andb_false_r in H. cbn [Nat.eqb] in H.
    destruct (Nat.eqb _ 5 && is_ccvcv _); [discriminate H|].
    destruct (is_ccvcy (a :: b :: r)) eqn:B4.
    { destruct (inv_ccvcy _ S B4) as [a' [b' [v [c [r' [E [? [? [? ?]]]]]]]]]. injection E as <- <- ->.
      destruct (pair_facts a b Ha Hb) as [_ Ep]. cbn [List.length Nat.eqb at_ nth skipn] in H. rewrite Ep in H.
      destruct r' as [|x r']; cbn [List.length Nat.eqb] in H; [discriminate H|].
      destruct (initial_pair a b) eqn:Eb; cbn [negb] in H; [|discriminate H]. smalled.
      destruct (ivl_sound1 _ _ _ _ _ H ltac:(sm)) as [l [P [El _]]].
      destruct (lax_head l P) as [x' [y [z [r'' [E' _]]]]]. pose proof (joined_more CCVC [a; b; v; c] l x' y (z :: r'') P E') as J.
      exists CCVC, [a; b; v; c], l. split; [auto|]. split; [now apply lax_nonempty|]. split.
      - constructor; auto. now constructor.
      - rewrite J, <- E', <- El. reflexivity. }
    destruct (is_ccv (a :: b :: r)) eqn:B8; [|discriminate H].
    destruct (inv_ccv _ S B8) as [a' [b' [u [r' [E [? [? ?]]]]]]]. injection E as <- <- ->.
    destruct (pair_facts a b Ha Hb) as [_ Ep]. cbn [List.length Nat.eqb at_ nth skipn] in H. rewrite Ep in H.
    destruct (initial_pair a b) eqn:Eb; cbn [negb] in H; [|discriminate H].
    destruct r' as [|x r']; [cbn in Lr; lia|]. cbn [List.length Nat.eqb] in H. smalled.
    destruct (ivl_sound1 _ _ _ _ _ H ltac:(sm)) as [l [P [El _]]].
    destruct (lax_head l P) as [x' [y [z [r'' [E' _]]]]]. pose proof (joined_more CCV [a; b; u] l x' y (z :: r'') P E') as J.
    exists CCV, [a; b; u], l. split; [auto|]. split; [now apply lax_nonempty|]. split.
    - constructor; auto. now constructor.
    - rewrite J, <- E', <- El. reflexivity. }
  assert (Ex : exists s, ivl (Datatypes.S fuel) (a :: b :: r) 0 false false None = Ok s).
  { clear Compl Sound. cbn [ivl]. know.
    assert (N1 : is_cvccv (a :: b :: r) = false) by (unfold is_cvccv, C, V; red_at; use; now rewrite !andb_false_r).
    assert (N2 : is_cvccy (a :: b :: r) = false) by (unfold is_cvccy, C, V; red_at; use; now rewrite !andb_false_r).
    assert (N3 : is_cvc (a :: b :: r) = false) by (unfold is_cvc, C, V; red_at; use; now rewrite !andb_false_r).
    assert (N4 : is_cvv (a :: b :: r) = false) by (unfold is_cvv, C, V; red_at; use; now rewrite !andb_false_r).
    assert (N5 : is_cvav (a :: b :: r) = false) by (unfold is_cvav, C, V; red_at; use; now rewrite !andb_false_r).
    rewrite N1, N2, N3, N4, N5, andb_false_r. cbn [Nat.eqb].
    assert (Next : forall n hr fc, (0 < n)%nat -> exists s, match skipn n (a :: b :: r) with [] => ivl_end 1 false hr fc | c :: t' => ivl fuel (c :: t') 1 false hr fc end = Ok s).
    { intros n hr' fc' Hn. destruct (skipn n (a :: b :: r)) as [|x r'] eqn:E; [eexists; apply ivl_end_ok|]. apply ivl_ok; [lia|].
      assert (Q : List.length (skipn n (a :: b :: r)) = Datatypes.S (List.length r')) by now rewrite E. rewrite skipn_len in Q. cbn [List.length] in *. lia. }
    repeat match goal with
    | |- exists b, (if ?c then _ else _) = _ => destruct c
    | |- exists b, Ok _ = _ => eexists; reflexivity
    end; apply Next; lia. }
  destruct Ex as [s E]. exists s. split; [exact E|]. split; intros H.
  - apply Sound. now rewrite E, H.
  - apply Compl in H. rewrite E in H. now injection H.
Qed.

(* ---- whole words ---- *)
Lemma lujvo_lax_two l t : lujvo_lax l t -> exists x y l', l = x :: y :: l'.
Proof. destruct 1; eauto. Qed.
Lemma lax_uncons x y l : parts_lax (x :: y :: l) -> medial (fst x) = true /\ form (fst x) (snd x) /\ parts_lax (y :: l).
Proof. intros P. inversion P; subst; try congruence. auto. Qed.

Lemma hyphen_first k p l a b r : (k, p) = hd (CVC, []) l -> parts_lax l -> joined l = a :: b :: r -> letter p 0 = a.
Proof.
  intros H P E. destruct (lax_head l P) as [a' [b' [c [r' [E' [_ [_ [k' [p' [l' [-> [La _]]]]]]]]]]]].
  cbn in H. injection H as -> ->. rewrite E in E'. now injection E' as <- _ _.
Qed.
Lemma two_apart x : ceq x "r" = true -> ceq x "n" = false.
Proof. intros H. apply Ascii.eqb_eq in H. subst. reflexivity. Qed.

Lemma first_cvv_ccv k p q fuel : k = CVV \/ k = CVhV -> parts_lax [(k, p); (CCV, q)] -> (List.length (p ++ q) < fuel)%nat ->
  ivl fuel (p ++ q) 0 false false None = Ok true.
Proof.
  intros Hk P L. destruct (lax_uncons _ _ _ P) as [_ [F P']]. cbn [fst snd] in F.
  assert (F' : form CCV q) by (inversion P'; subst; [assumption | match goal with K : parts_lax [] |- _ => inversion K end]).
  destruct fuel as [|fuel]; [lia|].
  assert (T : (List.length q < fuel)%nat -> ivl fuel q 1 true false None = Ok true).
  { intros Lq. exact (ivl_tail_ok _ P' fuel 1 true false None ltac:(lia) Lq). }
  clear P P'. inversion F'; subst. destruct Hk as [-> | ->]; inversion F; subst; clear F F'; know; cbn [app List.length] in L, T |- *; start; use;
    rewrite ?Ascii.eqb_refl; cbn [Nat.ltb Nat.leb andb orb negb]; apply T; lia.
Qed.
Lemma first_cvv k p y l fuel : k = CVV \/ k = CVhV -> fst y = CCV \/ l <> [] -> parts_lax ((k, p) :: y :: l) ->
  (List.length (p ++ [hyphen_rn y] ++ joined (y :: l)) < fuel)%nat ->
  ivl fuel (p ++ [hyphen_rn y] ++ joined (y :: l)) 0 false false None = Ok true.
Proof.
  intros Hk Hyl P. destruct (lax_uncons _ _ _ P) as [_ [F P']]. cbn [fst snd] in F.
  destruct (lax_head _ P') as [x [z [z' [r [E [Hx [Hz [k' [p' [l' [El [Lx Lz]]]]]]]]]]]]. injection El as -> <-.
  unfold hyphen_rn. cbn [snd]. rewrite Lx, E. clear Lx Lz.
  pose proof (fun fuel sc hr fc => ivl_tail_ok _ P' fuel 1 sc hr fc ltac:(lia)) as T. rewrite E in T.
  assert (T' : forall fuel, (List.length (x :: z :: z' :: r) < fuel)%nat -> ivl fuel (x :: z :: z' :: r) 1 true true None = Ok true).
  { intros fuel' Lf. rewrite T by exact Lf. unfold ivl_end. destruct l as [|y2 l]; [|reflexivity].
    destruct Hyl as [Hyl|Hyl]; [|congruence]. cbn in Hyl. subst k'. reflexivity. }
  clear T P P' E Hyl Hz. intros L. destruct fuel as [|fuel]; [lia|].
  assert (Hh : forall h, h = (if Ascii.eqb x "r" then "n"%char else "r"%char) -> ceq h "r" && negb (ceq x "r") || ceq h "n" && ceq x "r" = true).
  { intros h ->. unfold ceq. destruct (Ascii.eqb x "r"); reflexivity. }
  match type of L with context [[?h] ++ _] => specialize (Hh h eq_refl); remember h as hy eqn:Ehy; clear Ehy end.
  destruct Hk as [-> | ->]; inversion F; subst; clear F; know; cbn [app List.length] in L |- *; start; use;
    rewrite ?Ascii.eqb_refl; cbn [Nat.ltb Nat.leb andb orb]; use; apply T'; cbn [List.length]; lia.
Qed.
Lemma valid_complete l t : parts_lax l -> lujvo_lax l t -> is_valid_lujvo t = Ok true.
Proof.
  intros P J. unfold is_valid_lujvo.
  assert (G : forall fuel, (List.length t < fuel)%nat -> ivl fuel t 0 false false None = Ok true); [|apply G; lia]. intros fuel Lt.
  destruct J as [k p y l Hk | p y l Hy | p y l Hy Hn | k p q Hk | k p y l Hk Hyl].
  - destruct (lax_uncons _ _ _ P) as [_ [F P']]. apply first_plain; auto.
  - destruct (lax_uncons _ _ _ P) as [_ [F P']]. cbn [fst snd] in F. inversion F; subst. clear P F.
    destruct (lax_head _ P') as [x [z [z' [r [E [Hx [Hz [k' [p' [l' [El [Lx Lz]]]]]]]]]]]]. injection El as -> <-.
    unfold y_between in Hy. cbn [fst snd letter nth] in Hy. fold (letter p' 0) (letter p' 1) in Hy. rewrite Lx, Lz in Hy.
    pose proof (lax_smalls _ P') as S. rewrite E in Hy, S, Lt |- *.
    cbn [app List.length] in Lt |- *. destruct fuel as [|fuel]; [lia|].
    destruct (alone b x (z :: z' :: r) fuel) as [s [Es Hs]]; auto. { apply smalls_intro; [know; assumption | exact S]. } { cbn [List.length]; lia. } { cbn [List.length]; lia. }
    know. start. destruct (pair_facts b x ltac:(assumption) ltac:(assumption)) as [Ep _].
    use. rewrite Ep, triple_facts, Ascii.eqb_refl. cbn [Nat.ltb Nat.leb obind andb]. rewrite Es. cbn [obind].
    pose proof (fun fuel => ivl_tail_ok _ P' fuel 1 false false None ltac:(lia)) as T. rewrite E in T. unfold ivl_end in T.
    replace (permissible b x && negb (bad_triple b x z || s)) with false; [apply T; cbn [List.length]; lia|].
    destruct Hy as [Hy|Hy].
    + destruct (permissible b x), (bad_triple b x z); cbn in Hy |- *; congruence.
    + apply Hs in Hy. subst s. rewrite orb_true_r. now rewrite andb_false_r.
  - destruct (lax_uncons _ _ _ P) as [_ [F P']]. cbn [fst snd] in F. inversion F; subst. clear P F.
    destruct (lax_head _ P') as [x [z [z' [r [E [Hx [Hz [k' [p' [l' [El [Lx Lz]]]]]]]]]]]]. injection El as -> <-.
    unfold y_between in Hy. cbn [fst snd letter nth] in Hy, Hn. fold (letter p' 0) (letter p' 1) in Hy. rewrite Lx, Lz in Hy.
    pose proof (lax_smalls _ P') as S. rewrite E in Hn, S, Lt |- *.
    cbn [app List.length] in Lt |- *. destruct fuel as [|fuel]; [lia|].
    destruct (alone b x (z :: z' :: r) fuel) as [s [Es Hs]]; auto. { apply smalls_intro; [know; assumption | exact S]. } { cbn [List.length]; lia. } { cbn [List.length]; lia. }
    assert (Ez : ceq z "y" = false) by (destruct Hz as [Hz|Hz]; [destruct (cons_facts _ Hz) | destruct (vow_facts _ Hz)]; tauto).
    know. start. destruct (pair_facts b x ltac:(assumption) ltac:(assumption)) as [Ep _].
    use. rewrite Ep, triple_facts. cbn [Nat.ltb Nat.leb obind andb]. rewrite Es. cbn [obind].
    pose proof (fun fuel => ivl_tail_ok _ P' fuel 1 false false None ltac:(lia)) as T. rewrite E in T. unfold ivl_end in T.
    assert (s = false) by (destruct s; [tauto | reflexivity]). subst s. rewrite orb_false_r, Hy. apply T; cbn [List.length]; lia.
  - now apply first_cvv_ccv with k.
  - now apply first_cvv with k.
Qed.

Lemma fc_some l : parts_lax l -> fc_after l None = Some true -> List.length l = 1%nat -> exists q, l = [(CCV, q)].
Proof.
  intros P F L. destruct l as [|[k q] [|]]; try discriminate L. unfold fc_after, last_kind in F. cbn in F. destruct k; try discriminate F. eauto.
Qed.
Lemma valid_sound t : smalls t -> (3 < List.length t)%nat -> is_valid_lujvo t = Ok true -> exists l, parts_lax l /\ lujvo_lax l t.
Proof.
  unfold is_valid_lujvo. remember (S (List.length t)) as fuel0 eqn:Ef. intros S L H.
  destruct fuel0 as [|fuel]; [discriminate Ef|]. injection Ef as Ef. cbn [ivl] in H. cbn [Nat.eqb] in H.
  assert (Plain : forall k p l, k = CCV \/ k = CCVC \/ k = CVCC -> form k p -> parts_lax l -> t = joined ((k, p) :: l) -> exists l, parts_lax l /\ lujvo_lax l t).
  { intros k p l Hk F P ->. exists ((k, p) :: l). destruct l as [|y l]; [now apply lax_nonempty in P|]. split; [|now constructor].
    constructor; auto. destruct Hk as [-> | [-> | ->]]; reflexivity. }
  destruct (Nat.eqb (List.length t) 5 && is_cvccv t) eqn:B1; [discriminate H|].
  destruct (Nat.eqb (List.length t) 5 && is_ccvcv t) eqn:B2; [discriminate H|].
  destruct (is_cvccy t) eqn:B3.
  { destruct (inv_cvccy t S B3) as [a [v [b [c [r [-> [? [? [? ?]]]]]]]]].
    destruct (pair_facts b c ltac:(assumption) ltac:(assumption)) as [Ep _]. cbn [List.length Nat.eqb at_ nth skipn] in H. rewrite Ep in H.
    destruct r as [|x r]; cbn [List.length Nat.eqb] in H; [discriminate H|].
    destruct (permissible b c) eqn:Eb; cbn [negb] in H; [|discriminate H]. smalled.
    destruct (ivl_sound1 _ _ _ _ _ H ltac:(sm)) as [l [P [El _]]].
    destruct (lax_head l P) as [x' [y [z [r'' [E' _]]]]]. pose proof (joined_more CVCC [a; v; b; c] l x' y (z :: r'') P E') as J.
    apply (Plain CVCC [a; v; b; c] l); auto; [now constructor|]. rewrite J, <- E', <- El. reflexivity. }
  destruct (is_ccvcy t) eqn:B4.
  { destruct (inv_ccvcy t S B4) as [a [b [v [c [r [-> [? [? [? ?]]]]]]]]].
    destruct (pair_facts a b ltac:(assumption) ltac:(assumption)) as [_ Ep]. cbn [List.length Nat.eqb at_ nth skipn] in H. rewrite Ep in H.
    destruct r as [|x r]; cbn [List.length Nat.eqb] in H; [discriminate H|].
    destruct (initial_pair a b) eqn:Eb; cbn [negb] in H; [|discriminate H]. smalled.
    destruct (ivl_sound1 _ _ _ _ _ H ltac:(sm)) as [l [P [El _]]].
    destruct (lax_head l P) as [x' [y [z [r'' [E' _]]]]]. pose proof (joined_more CCVC [a; b; v; c] l x' y (z :: r'') P E') as J.
    apply (Plain CCVC [a; b; v; c] l); auto; [now constructor|]. rewrite J, <- E', <- El. reflexivity. }
  destruct (is_cvc t) eqn:B5.
  { destruct (inv_cvc t S B5) as [a [v [b [r [-> [? [? ?]]]]]]].
    destruct (Nat.ltb (List.length (a :: v :: b :: r)) 6) eqn:L6; [discriminate H|]. apply Nat.ltb_ge in L6. cbn [List.length] in L6, Ef.
    destruct r as [|x [|y [|z r]]]; cbn [List.length] in L6; try lia.
    cbn [at_ nth skipn] in H. smalled.
    assert (Split : forall s (P1 : bool) T, (do smabru <- s; if P1 && negb (T || smabru) then Ok false else ivl fuel (y :: z :: r) 1 false false None) = Ok true ->
      exists b, s = Ok b /\ P1 && negb (T || b) = false /\ ivl fuel (y :: z :: r) 1 false false None = Ok true).
    { intros s P1 T K. destruct s as [s| | | |]; try discriminate K. exists s. cbn [obind] in K. destruct (P1 && _); [discriminate K|auto]. }
    assert (Split' : forall s (P1 : bool) T, (do smabru <- s; if negb P1 || (T || smabru) then Ok false else ivl fuel (x :: y :: z :: r) 1 false false None) = Ok true ->
      exists b, s = Ok b /\ negb P1 || (T || b) = false /\ ivl fuel (x :: y :: z :: r) 1 false false None = Ok true).
    { intros s P1 T K. destruct s as [s| | | |]; try discriminate K. exists s. cbn [obind] in K. destruct (negb P1 || _); [discriminate K|auto]. }
    destruct (ceq x "y") eqn:Ex.
    - apply Ascii.eqb_eq in Ex. subst x. apply Split in H. destruct H as [s [Es [Y H]]].
      destruct (ivl_sound1 _ _ _ _ _ H ltac:(sm)) as [l [P [El _]]].
      destruct (lax_head l P) as [x' [y' [z' [r'' [E' [Hc [_ [k' [p' [l' [E2 [Lx Ly]]]]]]]]]]]]. rewrite E' in El. injection El as <- <- Er.
      destruct r as [|r0 r]; [discriminate Er|]. injection Er as <- <-.
      destruct (alone b y (z :: r0 :: r) fuel) as [s' [Es' Hs]]; auto; [sm | cbn [List.length]; lia | cbn [List.length] in Ef |- *; lia|].
      rewrite Es in Es'. injection Es' as <-.
      destruct (pair_facts b y ltac:(assumption) ltac:(assumption)) as [Ep _]. rewrite Ep, triple_facts in Y.
      exists ((CVC, [a; v; b]) :: l). split; [constructor; auto; now constructor|]. subst l.
      replace (a :: v :: b :: "y"%char :: y :: z :: r0 :: r) with ([a; v; b] ++ ["y"%char] ++ joined ((k', p') :: l')) by now rewrite E'.
      constructor. unfold y_between. cbn [fst snd]. rewrite Lx, Ly, E'. change (letter [a; v; b] 2) with b.
      destruct (permissible b y), (bad_triple b y z), s; cbn in Y |- *; try discriminate Y; try (left; reflexivity). right. now apply Hs.
    - apply Split' in H. destruct H as [s [Es [Y H]]].
      destruct (ivl_sound1 _ _ _ _ _ H ltac:(sm)) as [l [P [El _]]].
      destruct (lax_head l P) as [x' [y' [z' [r'' [E' [Hc [_ [k' [p' [l' [E2 [Lx Ly]]]]]]]]]]]]. rewrite E' in El. injection El as <- <- <- <-.
      destruct (alone b x (y :: z :: r) fuel) as [s' [Es' Hs]]; auto; [sm | cbn [List.length]; lia | cbn [List.length] in Ef |- *; lia|].
      rewrite Es in Es'. injection Es' as <-.
      destruct (pair_facts b x ltac:(assumption) ltac:(assumption)) as [Ep _]. rewrite Ep, triple_facts in Y.
      exists ((CVC, [a; v; b]) :: l). split; [constructor; auto; now constructor|]. subst l.
      replace (a :: v :: b :: x :: y :: z :: r) with ([a; v; b] ++ joined ((k', p') :: l')) by now rewrite E'.
      rewrite orb_assoc, orb_false_iff in Y. destruct Y as [Y ->].
      constructor; [unfold y_between; cbn [fst snd]; rewrite Lx, Ly; exact Y|].
      rewrite E'. change (letter [a; v; b] 2) with b. intros K. apply Hs in K. discriminate K. }
  assert (Cvv : forall k p x, k = CVV \/ k = CVhV -> form k p -> smalls x ->
     (exists h x' y r, t = p ++ h :: x' :: y :: r /\ x = x' :: y :: r /\
        (h = "r"%char /\ ceq x' "r" = false \/ h = "n"%char /\ ceq x' "r" = true) /\ ivl fuel x 1 true true None = Ok true) \/
     (t = p ++ x /\ ivl fuel x 1 true false None = Ok true) -> exists l, parts_lax l /\ lujvo_lax l t).
  { intros k p x Hk F Sx [[h [x' [y [r [-> [-> [Hh K]]]]]]] | [-> K]].
    - destruct (ivl_sound1 _ _ _ _ _ K Sx) as [l [P [El Kl]]].
      exists ((k, p) :: l). split; [constructor; auto; destruct Hk as [-> | ->]; reflexivity|].
      destruct (lax_head l P) as [x2 [y' [z' [r'' [E' [Hc [_ [k' [p' [l' [E2 [Lx Ly]]]]]]]]]]]]. subst l.
      assert (Hr : [hyphen_rn (k', p')] = [h]).
      { unfold hyphen_rn. cbn [snd]. rewrite Lx. rewrite E' in El. injection El as <- _ _. unfold ceq in Hh. destruct Hh as [[-> ->] | [-> ->]]; reflexivity. }
      replace (p ++ h :: x' :: y :: r) with (p ++ [hyphen_rn (k', p')] ++ joined ((k', p') :: l')) by now rewrite Hr, El.
      constructor; auto. destruct l' as [|]; [left | right; discriminate].
      unfold ivl_end, fc_after, last_kind in Kl. cbn in Kl. cbn. destruct k'; congruence.
    - destruct (ivl_sound1 _ _ _ _ _ K Sx) as [l [P [-> Kl]]].
      unfold ivl_end in Kl. destruct (Nat.eqb (1 + List.length l) 2) eqn:E2; [|discriminate Kl].
      apply Nat.eqb_eq in E2. destruct (fc_after l None) as [f|] eqn:Ef2; [|discriminate Kl].
      assert (f = true) by (rewrite orb_false_r in Kl; congruence). subst f.
      destruct (fc_some l P Ef2 ltac:(lia)) as [q ->]. exists [(k, p); (CCV, q)]. split.
      + constructor; auto. destruct Hk as [-> | ->]; reflexivity.
      + cbn [joined snd]. now constructor. }
  assert (Nil : forall hr, ivl_end 1 true hr None = Ok true -> hr = true) by (intros hr K; exact (f_equal (fun o => match o with Ok b => b | _ => false end) K)).
  destruct (is_cvv t) eqn:B6.
  { destruct (inv_cvv t S B6) as [a [v [u [r [-> [? [? ?]]]]]]]. unfold C in H. cbn [skipn at_ nth] in H. smalled.
    destruct (Nat.ltb (List.length (a :: v :: u :: r)) 6) eqn:L6; [discriminate H|]. apply Nat.ltb_ge in L6. cbn [List.length] in L6.
    destruct r as [|x [|y [|z r]]]; cbn [List.length] in L6; try lia. cbn [nth] in H. smalled.
    destruct (ceq x "r" && (is_consonant y && negb (ceq y "r")) || ceq x "n" && ceq y "r") eqn:Hh.
    - apply (Cvv CVV [a; v; u] (y :: z :: r)); auto; [now constructor | sm|]. left. exists x, y, z, r. repeat split; auto.
      apply orb_true_iff in Hh. rewrite !andb_true_iff, negb_true_iff in Hh. destruct Hh as [[E [_ ?]]|[E ?]]; apply Ascii.eqb_eq in E; auto.
    - apply (Cvv CVV [a; v; u] (x :: y :: z :: r)); auto; [now constructor | sm]. }
  destruct (is_cvav t) eqn:B7.
  { destruct (inv_cvav t S B7) as [a [v [u [r [-> [? [? ?]]]]]]]. unfold C in H. cbn [skipn at_ nth] in H. smalled.
    destruct (Nat.ltb (List.length (a :: v :: "'"%char :: u :: r)) 7) eqn:L6; [discriminate H|]. apply Nat.ltb_ge in L6. cbn [List.length] in L6.
    destruct r as [|x [|y [|z r]]]; cbn [List.length] in L6; try lia. cbn [nth] in H. smalled.
    destruct (ceq x "r" && (is_consonant y && negb (ceq y "r")) || ceq x "n" && ceq y "r") eqn:Hh.
    - apply (Cvv CVhV [a; v; "'"%char; u] (y :: z :: r)); auto; [now constructor | sm|]. left. exists x, y, z, r. repeat split; auto.
      apply orb_true_iff in Hh. rewrite !andb_true_iff, negb_true_iff in Hh. destruct Hh as [[E [_ ?]]|[E ?]]; apply Ascii.eqb_eq in E; auto.
    - apply (Cvv CVhV [a; v; "'"%char; u] (x :: y :: z :: r)); auto; [now constructor | sm]. }
  destruct (is_ccv t) eqn:B8; [|discriminate H].
  destruct (inv_ccv t S B8) as [a [b [u [r [-> [? [? ?]]]]]]]. cbn [skipn at_ nth List.length] in H. smalled.
  destruct (pair_facts a b ltac:(assumption) ltac:(assumption)) as [_ Ep]. rewrite Ep in H.
  destruct (initial_pair a b) eqn:Eb; cbn [negb] in H; [|discriminate H].
  destruct r as [|x r]; cbn [List.length Nat.eqb] in H, L; [lia|]. smalled.
  destruct (ivl_sound1 _ _ _ _ _ H ltac:(sm)) as [l [P [El _]]].
  destruct (lax_head l P) as [x' [y [z [r'' [E' _]]]]]. pose proof (joined_more CCV [a; b; u] l x' y (z :: r'') P E') as J.
  apply (Plain CCV [a; b; u] l); auto; [now constructor|]. rewrite J, <- E', <- El. reflexivity.
Qed.
