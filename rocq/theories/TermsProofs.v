From Coq Require Import List NArith Bool Arith Lia.
From Verif Require Import Base TreeModel ConvSpec TermsModel TermsSpec.
Import ListNotations.
Open Scope list_scope.

Arguments placed {A}. Arguments link {A}. Arguments links {A}. Arguments named {A}. Arguments bridi {A}.

(* ---------- the arrays ---------- *)

Lemma upd_nth a i j p : nth_error (upd a i p) j =
  if Nat.eqb i j then (if Nat.ltb i (List.length a) then Some p else None) else nth_error a j.
Proof.
  revert i j; induction a as [|q a IH]; intros [|i] [|j]; cbn; try reflexivity.
  - destruct (Nat.eqb i j); reflexivity.
  - rewrite IH. reflexivity.
Qed.
Lemma upd_length a i p : List.length (upd a i p) = List.length a.
Proof. revert i; induction a as [|q a IH]; intros [|i]; cbn; auto. Qed.

Notation obs := (place_type * nat)%type.
Definition stored (a : obs) (t : bool) : place := Place (fst a) true t (snd a).

Definition rel (pl : list place) (f : frame obs) : Prop :=
  List.length pl = 20 /\
  (forall p, p < 20 -> nth_error pl p = Some (stored (what f p) (full f p))) /\
  (forall p, 20 <= p -> full f p = false).

Definition relh (fai : list place) (h : list obs) : Prop :=
  exists f0 bs rest, fai = f0 :: map (fun e => stored (fst e) (snd e)) bs ++ rest /\
    map fst bs = h /\ List.length fai = 20 /\ Forall (fun p => pl_valid p = false) rest.

Lemma rel_get pl f p : rel pl f -> p < 20 -> get pl p = Ok (stored (what f p) (full f p)).
Proof. intros (_ & H & _) L. unfold get. rewrite (H p L). reflexivity. Qed.
Lemma rel_get_out pl f p : rel pl f -> 20 <= p -> get pl p = UB UB_bounds.
Proof.
  intros (H & _) L. unfold get. replace (nth_error pl p) with (@None place); auto.
  symmetry. apply nth_error_None. lia.
Qed.

Lemma rel_set pl f p a t : rel pl f -> p < 20 ->
  set pl p (stored a t) = Ok (upd pl p (stored a t)) /\
  rel (upd pl p (stored a t)) (Frame (fun q => if Nat.eqb q p then a else what f q)
    (fun q => if Nat.eqb q p then t else full f q) (hidden f)).
Proof.
  intros (L & H & O) P. split.
  - unfold set. rewrite L. destruct (Nat.ltb_spec p 20); [reflexivity | lia].
  - split; [rewrite upd_length; exact L | split].
    + intros q Q. cbn [what full]. rewrite upd_nth, L.
      rewrite (Nat.eqb_sym q p).
      destruct (Nat.eqb_spec p q).
      * destruct (Nat.ltb_spec p 20); [reflexivity | lia].
      * apply H, Q.
    + intros q Q. cbn [full]. destruct (Nat.eqb_spec q p); [lia | apply O, Q].
Qed.

Lemma rel_ext pl f g : rel pl f -> (forall p, p < 20 -> what f p = what g p) -> (forall p, full f p = full g p) -> rel pl g.
Proof.
  intros (L & H & O) W F. split; [exact L | split].
  - intros p P. rewrite <- W, <- F by assumption. apply H, P.
  - intros p P. rewrite <- F. apply O, P.
Qed.

Lemma rel_fill pl f p : rel pl f -> p < 20 ->
  set pl p (take (stored (what f p) (full f p))) = Ok (upd pl p (take (stored (what f p) (full f p)))) /\
  rel (upd pl p (take (stored (what f p) (full f p)))) (Frame (what f) (fill (full f) p) (hidden f)).
Proof.
  intros R P. destruct (rel_set pl f p (what f p) true R P) as (S1 & S2).
  split; [exact S1 |]. eapply rel_ext; [exact S2 | |]; cbn [what full].
  - intros q _. destruct (Nat.eqb_spec q p); subst; reflexivity.
  - intros q. unfold fill. destruct (Nat.eqb q p); reflexivity.
Qed.

Lemma skipn_cons {X} (l : list X) n x : nth_error l n = Some x -> skipn n l = x :: skipn (S n) l.
Proof. revert n; induction l as [|y l IH]; intros [|n]; cbn; intro H; try discriminate; [congruence | apply IH, H]. Qed.

(* the search for an empty place *)
Lemma first_free_found pl f b p : rel pl f -> b <= p -> p < 20 -> full f p = false ->
  (forall q, b <= q < p -> full f q = true) -> first_free b (skipn b pl) = Ok p.
Proof.
  intros R B P E T. remember (p - b) as d eqn:D. revert b B T D.
  induction d as [|d IH]; intros b B T D.
  - assert (b = p) by lia; subst b. destruct R as (_ & H & _).
    rewrite (skipn_cons _ _ _ (H p P)). cbn [first_free pl_taken stored]. rewrite E. reflexivity.
  - destruct R as (_ & H & _). rewrite (skipn_cons _ _ _ (H b ltac:(lia))).
    cbn [first_free pl_taken stored]. rewrite (T b) by lia. apply IH; [lia | intros q Q; apply T; lia | lia].
Qed.
Lemma first_free_out pl f b p : rel pl f -> b <= p -> 20 <= p ->
  (forall q, b <= q < p -> full f q = true) -> first_free b (skipn b pl) = UB UB_bounds.
Proof.
  intros R B P T. remember (20 - b) as d eqn:D. revert b B T D.
  induction d as [|d IH]; intros b B T D.
  - destruct R as (L & _). rewrite skipn_all2 by lia. reflexivity.
  - assert (b < 20) by lia. destruct R as (L & H1 & O). rewrite (skipn_cons _ _ _ (H1 b H)).
    cbn [first_free pl_taken stored]. rewrite (T b) by lia. apply IH; [lia | intros q Q; apply T; lia | lia].
Qed.

Definition show (f : frame obs) (e : path * nat) : given obs := (fst e, Some (snd e), what f (snd e)).
(* a term with the place chained to it, as against one given *)
Definition same (x : fixup) (g : given obs) : Prop :=
  fst x = fst (fst g) /\ exists t, snd x = stored (snd g) t.

Lemma assign_pos_ok ts : forall fu b out fu', unmarked fu b ts out fu' ->
  forall pl f, rel pl f -> full f = fu ->
  (Forall (fun e => snd e < 20) out /\ exists pl' xs, assign_pos ts pl b = Ok (pl', xs) /\
     rel pl' (Frame (what f) fu' (hidden f)) /\ Forall2 same xs (map (show f) out)) \/
  (Exists (fun e => 20 <= snd e) out /\ assign_pos ts pl b = UB UB_bounds).
Proof.
  induction 1 as [fu b|fu b n ts p out fu' B E T U IH|fu b k n ts out fu' K U IH|fu b n ts out fu' U IH
                 |fu b n ts out fu' U IH|fu b n ts out fu' U IH]; intros pl f R F.
  - left. split; [constructor | exists pl, []]. cbn. split; [reflexivity |]. subst fu. split; [destruct f; exact R | constructor].
  - subst fu. destruct (Nat.lt_ge_cases p 20) as [P|P].
    + pose proof (rel_fill _ _ _ R P) as (S1 & S2).
      assert (G : forall X (k : outcome X), True) by auto. clear G.
      destruct (IH _ _ S2 eq_refl) as [(F1 & pl' & xs & A1 & A2 & A3)|(F1 & A1)].
      * left. split; [constructor; assumption |].
        exists pl', ((n, stored (what f p) (full f p)) :: xs). split; [| split].
        -- cbn [assign_pos]. rewrite (first_free_found _ _ _ _ R B P E T). cbn [obind].
           unfold MAX_POS. destruct (Nat.ltb_spec 20 p); [lia |].
           rewrite (rel_get _ _ _ R P). cbn [obind]. rewrite S1. cbn [obind]. rewrite A1. reflexivity.
        -- exact A2.
        -- constructor; [split; [reflexivity | eexists; reflexivity] | exact A3].
      * right. split; [apply Exists_cons_tl, F1 |].
        cbn [assign_pos]. rewrite (first_free_found _ _ _ _ R B P E T). cbn [obind].
        unfold MAX_POS. destruct (Nat.ltb_spec 20 p); [lia |].
        rewrite (rel_get _ _ _ R P). cbn [obind]. rewrite S1. cbn [obind]. rewrite A1. reflexivity.
    + right. split; [apply Exists_cons_hd; exact P |].
      cbn [assign_pos]. rewrite (first_free_out _ _ _ _ R B P T). reflexivity.
  - cbn [assign_pos]. unfold FAI_OFFSET. destruct (Nat.ltb_spec k 101); [| lia]. apply IH; assumption.
  - cbn [assign_pos]. apply IH; assumption.
  - apply IH; assumption.
  - apply IH; assumption.
Qed.

(* marked sumti *)
Lemma relh_get fai h : relh fai h ->
  match h with
  | a :: _ => exists t, get fai 1 = Ok (stored a t) /\
      set fai 1 (take (stored a t)) = Ok (upd fai 1 (take (stored a t))) /\
      relh (upd fai 1 (take (stored a t))) h
  | [] => exists p, get fai 1 = Ok p /\ pl_valid p = false
  end.
Proof.
  intros (f0 & bs & rest & E & M & L & V). destruct bs as [|[a t] bs]; cbn in M; subst h.
  - destruct rest as [|p rest]; [subst fai; cbn in L; discriminate |].
    exists p. subst fai. split; [reflexivity | inversion V; assumption].
  - exists t. split; [subst fai; reflexivity |]. split.
    + unfold set. rewrite L. reflexivity.
    + exists f0, ((a, true) :: bs), rest. split; [subst fai; reflexivity |]. split; [reflexivity |].
      split; [rewrite upd_length; exact L | exact V].
Qed.

Lemma named_fai (f : frame obs) n ts : named f (TRM_FA 101 n :: ts) =
  match hidden f with h :: _ => [(n, None, h)] | [] => [] end ++ named f ts.
Proof. reflexivity. Qed.

Lemma assign_fa_ok ts : Forall term_ok ts -> forall pl fai f h, rel pl f -> relh fai h ->
  hidden f = h ->
  exists pl' fai' xs, assign_fa ts pl fai = Ok (pl', fai', xs) /\
    rel pl' (Frame (what f) (fun p => full f p || names p ts) h) /\ relh fai' h /\
    Forall2 same xs (named f ts).
Proof.
  induction 1 as [|t ts T TS IH]; intros pl fai f h R RH HF.
  - exists pl, fai, []. split; [reflexivity |]. split; [| split; [exact RH | constructor]].
    eapply rel_ext; [exact R | reflexivity |]. intro p. cbn. rewrite orb_false_r. reflexivity.
  - assert (SKIP : forall t', (match t' with TRM_FA _ _ => False | _ => True end) -> t' = t ->
      exists pl' fai' xs, assign_fa (t' :: ts) pl fai = Ok (pl', fai', xs) /\
      rel pl' (Frame (what f) (fun p => full f p || names p (t' :: ts)) h) /\ relh fai' h /\
      Forall2 same xs (named f (t' :: ts))).
    { intros t' NF _. destruct (IH _ _ _ _ R RH HF) as (pl' & fai' & xs & A1 & A2 & A3 & A4).
      exists pl', fai', xs. destruct t'; try contradiction; (split; [exact A1 | split; [exact A2 | split; [exact A3 | exact A4]]]). }
    destruct t as [n|k n|n|n]; try (apply SKIP; [exact I | reflexivity]).
    clear SKIP. cbn [term_ok] in T. destruct T as [K|K].
    + assert (P : k < 20) by lia.
      pose proof (rel_fill _ _ _ R P) as (S1 & S2).
      destruct (IH _ _ _ _ S2 RH HF) as (pl' & fai' & xs & A1 & A2 & A3 & A4).
      exists pl', fai', ((n, stored (what f k) (full f k)) :: xs).
      split; [| split; [| split]].
      * cbn [assign_fa]. unfold FAI_OFFSET at 1. destruct (Nat.ltb_spec k 101); [| lia].
        rewrite (rel_get _ _ _ R P). cbn [obind pl_valid stored]. rewrite S1. cbn [obind]. rewrite A1. reflexivity.
      * eapply rel_ext; [exact A2 | reflexivity |]. intro p. cbn [full names existsb].
        unfold fill. fold (names p ts). destruct (Nat.leb_spec k 5); [| lia].
        rewrite (Nat.eqb_sym k p). destruct (Nat.eqb p k), (full f p), (names p ts); reflexivity.
      * exact A3.
      * cbn [named flat_map]. destruct (Nat.leb_spec k 5); [| lia]. cbn [app].
        constructor; [split; [reflexivity | eexists; reflexivity] | exact A4].
    + subst k. pose proof (relh_get _ _ RH) as G.
      assert (NM : forall p, names p (TRM_FA 101 n :: ts) = names p ts).
      { intro p. cbn [names existsb]. rewrite andb_false_r. reflexivity. }
      destruct h as [|a h].
      * destruct G as (p & G1 & G2).
        destruct (IH _ _ _ _ R RH HF) as (pl' & fai' & xs & A1 & A2 & A3 & A4).
        exists pl', fai', xs. split; [| split; [| split]].
        -- cbn [assign_fa]. change (Nat.ltb 101 FAI_OFFSET) with false. cbv iota.
           change (101 - FAI_OFFSET + 1) with 1. cbv zeta. rewrite G1. cbn [obind]. rewrite G2. exact A1.
        -- eapply rel_ext; [exact A2 | reflexivity |]. intro q. cbn [full]. rewrite NM. reflexivity.
        -- exact A3.
        -- rewrite named_fai, HF. exact A4.
      * destruct G as (t & G1 & G2 & G3).
        destruct (IH _ _ _ _ R G3 HF) as (pl' & fai' & xs & A1 & A2 & A3 & A4).
        exists pl', fai', ((n, stored a t) :: xs). split; [| split; [| split]].
        -- cbn [assign_fa]. change (Nat.ltb 101 FAI_OFFSET) with false. cbv iota.
           change (101 - FAI_OFFSET + 1) with 1. cbv zeta. rewrite G1. cbn [obind pl_valid stored].
           fold (stored a t). rewrite G2. cbn [obind]. rewrite A1. reflexivity.
        -- eapply rel_ext; [exact A2 | reflexivity |]. intro q. cbn [full]. rewrite NM. reflexivity.
        -- exact A3.
        -- rewrite named_fai, HF. cbn [app].
           constructor; [split; [reflexivity | eexists; reflexivity] | exact A4].
Qed.

Lemma Forall2_app2 {X Y} (R : X -> Y -> Prop) a b c d : Forall2 R a b -> Forall2 R c d -> Forall2 R (a ++ c) (b ++ d).
Proof. induction 1; cbn; auto. Qed.

Lemma named_small f ts n p a : Forall term_ok ts -> In (n, Some p, a) (@named obs f ts) -> p < 20.
Proof.
  intros T I. unfold named in I. apply in_flat_map in I. destruct I as (t & I1 & I2).
  destruct t as [|k m|m|m]; try contradiction.
  destruct (Nat.leb_spec k 5).
  - cbn in I2. destruct I2 as [I2|[]]. inversion I2; subst. lia.
  - destruct (hidden f) as [|h hs]; cbn in I2; [contradiction | destruct I2 as [I2|[]]]. discriminate.
Qed.

Definition obs_rel (f : frame obs) (pl fai : list place) : Prop := rel pl f /\ relh fai (hidden f).

Lemma assign_terms_ok b ts f out f' : Forall term_ok ts -> placed f b ts out f' ->
  forall pl fai, obs_rel f pl fai ->
  (fits out /\ exists pl' fai' xs, assign_terms_to_places ts pl fai b = Ok (pl', fai', xs) /\
     obs_rel f' pl' fai' /\ Forall2 same xs out) \/
  (~ fits out /\ assign_terms_to_places ts pl fai b = UB UB_bounds).
Proof.
  intros T P pl fai (R & RH). destruct P as [out full' U].
  destruct (assign_fa_ok ts T pl fai f (hidden f) R RH eq_refl) as (pl1 & fai1 & xs & A1 & A2 & A3 & A4).
  destruct (assign_pos_ok _ _ _ _ _ U pl1 _ A2 eq_refl) as [(F & pl2 & ys & B1 & B2 & B3)|(F & B1)].
  - left. split.
    + intros n p a I. apply in_app_or in I. destruct I as [I|I].
      * eapply named_small; eassumption.
      * apply in_map_iff in I. destruct I as ((m & q) & I1 & I2). cbn in I1. inversion I1; subst.
        rewrite Forall_forall in F. apply (F _ I2).
    + exists pl2, fai1, (xs ++ ys). unfold assign_terms_to_places. rewrite A1. cbn [obind]. rewrite B1. cbn [obind].
      split; [reflexivity |]. split; [split; [exact B2 | exact A3] |].
      apply Forall2_app2; assumption.
  - right. split.
    + intro G. apply Exists_exists in F. destruct F as ((m & q) & I & Q). cbn in Q.
      assert (q < 20); [| lia]. eapply (G m q (what f q)). apply in_or_app. right.
      apply in_map_iff. exists (m, q). split; [reflexivity | exact I].
    + unfold assign_terms_to_places. rewrite A1. cbn [obind]. rewrite B1. reflexivity.
Qed.

(* jai *)
Lemma first_invalid_spec bs rest j : Forall (fun p => pl_valid p = false) rest ->
  first_invalid j (map (fun e : obs * bool => stored (fst e) (snd e)) bs ++ rest) =
  match rest with [] => UB UB_bounds | _ => Ok (j + List.length bs) end.
Proof.
  intro V. revert j. induction bs as [|e bs IH]; intro j; cbn [map app first_invalid pl_valid stored List.length].
  - destruct V as [|p rest E V]; cbn; [reflexivity |]. rewrite E. f_equal. lia.
  - rewrite IH. destruct rest; [reflexivity |]. f_equal. lia.
Qed.

Lemma push_fai_ok fai h a t : relh fai h ->
  (List.length h < 19 /\ exists fai', push_fai fai (stored a t) = Ok fai' /\ relh fai' (a :: h)) \/
  (19 <= List.length h /\ push_fai fai (stored a t) = UB UB_bounds).
Proof.
  intros (f0 & bs & rest & E & M & L & V). subst fai. cbn in L. rewrite app_length, map_length in L.
  assert (HL : List.length h = List.length bs) by (subst h; rewrite map_length; reflexivity).
  unfold push_fai. rewrite first_invalid_spec by exact V.
  destruct rest as [|r rest].
  - right. cbn in L. split; [lia | reflexivity].
  - left. cbn in L. split; [lia |]. cbn [obind]. eexists. split; [reflexivity |].
    replace (1 + List.length bs - 1) with (List.length bs) by lia.
    exists f0, ((a, t) :: bs), rest. split; [| split; [| split]].
    + cbn [map app fst snd]. f_equal. f_equal.
      rewrite firstn_app, map_length, Nat.sub_diag. cbn [firstn]. rewrite app_nil_r.
      rewrite firstn_all2 by (rewrite map_length; lia). f_equal.
      rewrite skipn_app, map_length. rewrite skipn_all2 by (rewrite map_length; lia).
      replace (1 + List.length bs - List.length bs) with 1 by lia. reflexivity.
    + cbn. rewrite M. reflexivity.
    + cbn [List.length]. rewrite app_length, firstn_app, skipn_app, !app_length, firstn_length, firstn_length, skipn_length, skipn_length, map_length. cbn [List.length]. lia.
    + inversion V; assumption.
Qed.

Lemma assign_link_ok e f out f' : link_ok e -> link jai_shown true (fun _ _ => True) e f out f' ->
  forall pl fai, obs_rel f pl fai ->
  (fits out /\ List.length (hidden f') <= 19 /\ exists pl' fai' xs, assign_link e pl fai = Ok (pl', fai', xs) /\
     obs_rel f' pl' fai' /\ Forall2 same xs out) \/
  ((~ fits out \/ 19 < List.length (hidden f')) /\ assign_link e pl fai = UB UB_bounds).
Proof.
  intros K L pl fai (R & RH).
  assert (LH : List.length (hidden f) <= 19).
  { destruct RH as (f0 & bs & rest & E & M & LL & V). rewrite <- M, map_length. rewrite E in LL. cbn in LL.
    rewrite app_length, map_length in LL. lia. }
  assert (NF : @fits obs []) by (intros ? ? ? []).
  destruct L as [c f C|f _|t u f _|v f out f' P].
  - left. split; [exact NF |]. split; [exact LH |].
    pose proof (rel_set _ _ 1 (what f c) (full f c) R ltac:(lia)) as (S1 & S2).
    pose proof (rel_set _ _ c (what f 1) (full f 1) S2 ltac:(lia)) as (S3 & S4).
    eexists _, fai, []. split; [| split; [split; [eapply rel_ext; [exact S4 | |] | exact RH] | constructor]].
    + cbn [assign_link]. rewrite (rel_get _ _ 1 R) by lia. cbn [obind].
      rewrite (rel_get _ _ c R) by lia. cbn [obind]. rewrite S1. cbn [obind]. rewrite S3. reflexivity.
    + intros p _. cbn [what]. unfold transpose. destruct (Nat.eqb_spec p c), (Nat.eqb_spec p 1); subst; try reflexivity; lia.
    + intros p. cbn [full]. unfold transpose. destruct (Nat.eqb_spec p c), (Nat.eqb_spec p 1); subst; try reflexivity; lia.
  - destruct (push_fai_ok fai (hidden f) (what f 1) (full f 1) RH) as [(H1 & fai' & H2 & H3)|(H1 & H2)].
    + left. split; [exact NF |]. split; [cbn; lia |].
      pose proof (rel_set _ _ 1 (jai_shown (what f 1) None) (full f 1) R ltac:(lia)) as (S1 & S2).
      eexists _, fai', []. split; [| split; [split; [exact S2 | exact H3] | constructor]].
      cbn [assign_link]. rewrite (rel_get _ _ 1 R) by lia. cbn [obind]. rewrite H2. cbn [obind].
      unfold stored in S1 at 1. cbn [jai_shown fst snd] in S1. cbn [pl_taken pl_pos stored]. rewrite S1. reflexivity.
    + right. split; [right; cbn; lia |].
      cbn [assign_link]. rewrite (rel_get _ _ 1 R) by lia. cbn [obind]. rewrite H2. reflexivity.
  - destruct (push_fai_ok fai (hidden f) (what f 1) (full f 1) RH) as [(H1 & fai' & H2 & H3)|(H1 & H2)].
    + left. split; [exact NF |]. split; [cbn; lia |].
      pose proof (rel_set _ _ 1 (jai_shown (what f 1) (Some (t, u))) (full f 1) R ltac:(lia)) as (S1 & S2).
      eexists _, fai', []. split; [| split; [split; [exact S2 | exact H3] | constructor]].
      cbn [assign_link]. rewrite (rel_get _ _ 1 R) by lia. cbn [obind]. rewrite H2. cbn [obind].
      unfold stored in S1 at 1. cbn [jai_shown fst snd] in S1. cbn [pl_taken pl_pos stored]. rewrite S1. reflexivity.
    + right. split; [right; cbn; lia |].
      cbn [assign_link]. rewrite (rel_get _ _ 1 R) by lia. cbn [obind]. rewrite H2. reflexivity.
  - destruct (assign_terms_ok 2 v f out f' K P pl fai (conj R RH)) as [(F & pl' & fai' & xs & A1 & A2 & A3)|(F & A1)].
    + left. split; [exact F |]. split; [destruct P; exact LH |]. exists pl', fai', xs. auto.
    + right. split; [left; exact F | exact A1].
Qed.

Lemma fits_app {A} (a b : list (given A)) : fits (a ++ b) <-> fits a /\ fits b.
Proof.
  split.
  - intro F. split; intros n p x I; apply (F n p x), in_or_app; auto.
  - intros (F & G) n p x I. apply in_app_or in I. destruct I as [I|I]; [apply (F n p x I) | apply (G n p x I)].
Qed.

Lemma link_hidden {A} new keep side e (f : frame A) out f' : link new keep side e f out f' ->
  List.length (hidden f') = List.length (filter is_jai [e]) + List.length (hidden f).
Proof. destruct 1; try reflexivity. destruct H; reflexivity. Qed.
Lemma links_hidden {A} new keep side es (f : frame A) out f' : links new keep side es f out f' ->
  List.length (hidden f') = List.length (filter is_jai es) + List.length (hidden f).
Proof.
  induction 1; [reflexivity |]. rewrite IHlinks, (link_hidden _ _ _ _ _ _ _ H). cbn [filter].
  destruct (is_jai e); cbn [List.length]; lia.
Qed.

Lemma assign_links_ok es f out f' : Forall link_ok es -> links jai_shown true (fun _ _ => True) es f out f' ->
  forall pl fai, obs_rel f pl fai ->
  (fits out /\ List.length (hidden f') <= 19 /\ exists pl' fai' xs, assign_links es pl fai = Ok (pl', fai', xs) /\
     obs_rel f' pl' fai' /\ Forall2 same xs out) \/
  ((~ fits out \/ 19 < List.length (hidden f')) /\ assign_links es pl fai = UB UB_bounds).
Proof.
  intros K L. revert K. induction L as [f|e es f out g outs h L Ls IH]; intros K pl fai R.
  - left. split; [intros ? ? ? [] |]. split.
    { destruct R as (_ & f0 & bs & rest & E & M & LL & V). rewrite <- M, map_length. rewrite E in LL. cbn in LL.
      rewrite app_length, map_length in LL. lia. }
    exists pl, fai, []. split; [reflexivity | split; [exact R | constructor]].
  - inversion K as [|? ? K1 K2]; subst.
    assert (M : List.length (hidden g) <= List.length (hidden h)).
    { rewrite (links_hidden _ _ _ _ _ _ _ Ls). lia. }
    destruct (assign_link_ok _ _ _ _ K1 L _ _ R) as [(F & H & pl' & fai' & xs & A1 & A2 & A3)|(F & A1)].
    + destruct (IH K2 _ _ A2) as [(F' & H' & pl2 & fai2 & ys & B1 & B2 & B3)|(F' & B1)].
      * left. split; [apply fits_app; auto |]. split; [exact H' |].
        exists pl2, fai2, (xs ++ ys). cbn [assign_links]. rewrite A1. cbn [obind]. rewrite B1. cbn [obind].
        split; [reflexivity | split; [exact B2 | apply Forall2_app2; assumption]].
      * right. split.
        -- destruct F' as [F'|F']; [left; rewrite fits_app; tauto | right; exact F'].
        -- cbn [assign_links]. rewrite A1. cbn [obind]. rewrite B1. reflexivity.
    + right. split.
      * destruct F as [F|F]; [left; rewrite fits_app; tauto | right; lia].
      * cbn [assign_links]. rewrite A1. reflexivity.
Qed.

Lemma init_rel : obs_rel (Frame (fun p => (PT_ORD, p)) (fun _ => false) []) init_places init_fai.
Proof.
  split.
  - split; [reflexivity |]. split; [| reflexivity]. intros p P.
    do 20 (destruct p as [|p]; [reflexivity |]). lia.
  - exists (Place PT_ORD false false 0), [], (repeat (Place PT_ORD false false 0) 19).
    split; [reflexivity |]. split; [reflexivity |]. split; [reflexivity |].
    apply Forall_forall. intros x I. apply repeat_spec in I. subst. reflexivity.
Qed.

Theorem assign_places_ok pre post lc out :
  Forall term_ok pre -> Forall term_ok post -> Forall link_ok lc -> observed pre post lc out ->
  (fits out /\ List.length (filter is_jai lc) <= 19 /\
   exists xs, assign_places pre post lc = Ok xs /\ Forall2 same xs out) \/
  ((~ fits out \/ 19 < List.length (filter is_jai lc)) /\ assign_places pre post lc = UB UB_bounds).
Proof.
  intros T1 T2 K [o1 f1 o2 f2 o3 f3 L P1 P2].
  assert (RV : List.length (hidden f1) = List.length (filter is_jai lc)).
  { rewrite (links_hidden _ _ _ _ _ _ _ L). cbn. rewrite Nat.add_0_r.
    clear. induction lc as [|e lc IH]; [reflexivity |]. cbn [rev]. rewrite filter_app, app_length, IH. cbn.
    destruct (is_jai e); cbn; lia. }
  rewrite <- RV.
  assert (K' : Forall link_ok (rev lc)) by (apply Forall_forall; intros x I; rewrite <- in_rev in I; rewrite Forall_forall in K; auto).
  unfold assign_places.
  destruct (assign_links_ok _ _ _ _ K' L _ _ init_rel) as [(F & H & pl' & fai' & xs & A1 & A2 & A3)|(F & A1)].
  - rewrite A1. cbn [obind].
    destruct (assign_terms_ok _ _ _ _ _ T1 P1 _ _ A2) as [(F1 & pl2 & fai2 & ys & B1 & B2 & B3)|(F1 & B1)]; rewrite B1; cbn [obind].
    + destruct (assign_terms_ok _ _ _ _ _ T2 P2 _ _ B2) as [(F2 & pl3 & fai3 & zs & C1 & C2 & C3)|(F2 & C1)]; rewrite C1; cbn [obind].
      * left. split; [rewrite !fits_app; auto |]. split; [exact H |]. eexists. split; [reflexivity |].
        repeat apply Forall2_app2; assumption.
      * right. split; [left; rewrite !fits_app; tauto | reflexivity].
    + right. split; [left; rewrite !fits_app; tauto | reflexivity].
  - rewrite A1. cbn [obind]. right. split; [| reflexivity]. destruct F as [F|F]; [left; rewrite !fits_app; tauto | right; exact F].
Qed.
