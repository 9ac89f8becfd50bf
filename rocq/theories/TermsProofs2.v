From Coq Require Import List NArith Bool Arith Lia.
From Verif Require Import Base TreeModel ConvSpec TermsModel TermsSpec TermsProofs.
Import ListNotations.
Open Scope list_scope.

(* ---------- bounds and existence ---------- *)

Definition bounded (f : nat -> bool) (B : nat) : Prop := forall q, B < q -> f q = false.

Lemma least_free f b B : bounded f B -> b <= S B ->
  exists p, b <= p <= S B /\ f p = false /\ forall q, b <= q < p -> f q = true.
Proof.
  intros H L. remember (S B - b) as d eqn:D. revert b L D. induction d as [|d IH]; intros b L D.
  - exists b. split; [lia |]. split; [apply H; lia | intros q Q; lia].
  - destruct (f b) eqn:E.
    + destruct (IH (S b) ltac:(lia) ltac:(lia)) as (p & P1 & P2 & P3).
      exists p. split; [lia |]. split; [exact P2 |]. intros q Q.
      destruct (Nat.eq_dec q b); [subst; exact E | apply P3; lia].
    + exists b. split; [lia |]. split; [exact E | intros q Q; lia].
Qed.

Lemma unmarked_total ts : Forall term_ok ts -> forall f b B, bounded f B -> 5 <= B -> b <= S B ->
  exists out f', unmarked f b ts out f'.
Proof.
  induction 1 as [|t ts T _ IH]; intros f b B HB B5 Bb.
  - exists [], f. constructor.
  - destruct t as [n|k n|n|n].
    + destruct (least_free f b B HB Bb) as (p & P1 & P2 & P3).
      destruct (IH (fill f p) (S p) (S B)) as (out & f' & U); [| lia | lia |].
      { intros q Q. unfold fill. destruct (Nat.eqb_spec q p); [lia | apply HB; lia]. }
      exists ((n, p) :: out), f'. apply um_pos; auto. lia.
    + destruct T as [K|K].
      * destruct (IH f (S k) B HB B5 ltac:(lia)) as (out & f' & U). exists out, f'. apply um_fa; auto.
      * subst k. destruct (IH f b B HB B5 Bb) as (out & f' & U). exists out, f'. apply um_fai; auto.
    + destruct (IH f b B HB B5 Bb) as (out & f' & U). exists out, f'. apply um_fahi; auto.
    + destruct (IH f b B HB B5 Bb) as (out & f' & U). exists out, f'. apply um_tag; auto.
Qed.

Lemma unmarked_bound f b ts out f' : unmarked f b ts out f' -> forall B, bounded f B -> 5 <= B -> b <= S B ->
  bounded f' (B + unmarked_count ts) /\ Forall (fun e => snd e <= B + unmarked_count ts) out.
Proof.
  unfold unmarked_count.
  induction 1 as [fu b|fu b n ts p out fu' Bp E T U IH|fu b k n ts out fu' K U IH|fu b n ts out fu' U IH
                 |fu b n ts out fu' U IH|fu b n ts out fu' U IH]; intros B HB B5 Bb; cbn [filter List.length].
  - rewrite Nat.add_0_r. split; [exact HB | constructor].
  - assert (P : p <= S B).
    { destruct (Nat.le_gt_cases p (S B)); [assumption |]. specialize (T (S B) ltac:(lia)). rewrite HB in T by lia. discriminate. }
    destruct (IH (S B)) as (I1 & I2); [| lia | lia |].
    { intros q Q. unfold fill. destruct (Nat.eqb_spec q p); [lia | apply HB; lia]. }
    split.
    + intros q Q. apply I1. lia.
    + constructor; [cbn; lia |]. eapply Forall_impl; [| exact I2]. cbn. intros; lia.
  - apply IH; auto. lia.
  - apply IH; auto.
  - apply IH; auto.
  - apply IH; auto.
Qed.

Lemma names_bounded ts : forall p, 5 < p -> names p ts = false.
Proof.
  intros p P. unfold names. induction ts as [|t ts IH]; cbn; [reflexivity |].
  rewrite IH, orb_false_r. destruct t as [n|k n|n|n]; try reflexivity.
  destruct (Nat.eqb_spec k p); cbn [andb]; [| reflexivity]. apply Nat.leb_gt. lia.
Qed.

Definition numbers {A} (out : list (given A)) (B : nat) : Prop := forall n p a, In (n, Some p, a) out -> p <= B.
Lemma numbers_app {A} (a b : list (given A)) B : numbers a B -> numbers b B -> numbers (a ++ b) B.
Proof. intros H G n p x I. apply in_app_or in I. destruct I; [eapply H | eapply G]; eassumption. Qed.
Lemma numbers_le {A} (a : list (given A)) B C : numbers a B -> B <= C -> numbers a C.
Proof. intros H L n p x I. specialize (H n p x I). lia. Qed.

Section GEN.
  Variable A : Type.
  Variable new : A -> option (path * path) -> A.
  Variable keep : bool.
  Variable core : nat -> A.

  Lemma placed_bound (f : frame A) b ts out f' B : placed f b ts out f' ->
    bounded (full f) B -> 5 <= B -> b <= S B ->
    bounded (full f') (B + unmarked_count ts) /\ numbers out (B + unmarked_count ts).
  Proof.
    intros [out1 full' U] HB B5 Bb.
    destruct (unmarked_bound _ _ _ _ _ U B) as (I1 & I2); auto.
    { intros q Q. rewrite HB by exact Q. rewrite names_bounded by lia. reflexivity. }
    split; [exact I1 |]. apply numbers_app.
    - intros n p a I. apply in_flat_map in I. destruct I as (t & _ & I). destruct t as [m|k m|m|m]; try contradiction.
      destruct (Nat.leb_spec k 5).
      + destruct I as [I|[]]. inversion I; subst. lia.
      + destruct (hidden f); [contradiction | destruct I as [I|[]]; discriminate].
    - intros n p a I. apply in_map_iff in I. destruct I as ((m & q) & E & I). inversion E; subst.
      rewrite Forall_forall in I2. apply (I2 _ I).
  Qed.
  Lemma placed_total (f : frame A) b ts B : Forall term_ok ts -> bounded (full f) B -> 5 <= B -> b <= S B ->
    exists out f', placed f b ts out f'.
  Proof.
    intros T HB B5 Bb.
    destruct (unmarked_total ts T (fun p => full f p || names p ts) b B) as (out & f' & U); auto.
    { intros q Q. rewrite HB by exact Q. rewrite names_bounded by lia. reflexivity. }
    eexists _, _. apply placed_intro. exact U.
  Qed.

  Lemma link_bound side e (f : frame A) out f' B : link_ok e -> link new keep side e f out f' ->
    bounded (full f) B -> 5 <= B ->
    bounded (full f') (B + link_count e) /\ numbers out (B + link_count e).
  Proof.
    intros K L HB B5. destruct L as [c f C|f _|t u f _|v f out f' P]; cbn [link_count].
    - split; [| intros ? ? ? []]. intros q Q. cbn [full]. unfold transpose.
      destruct (Nat.eqb_spec q 1); [lia |]. destruct (Nat.eqb_spec q c); [lia |]. apply HB. lia.
    - split; [| intros ? ? ? []]. intros q Q. cbn [full jai]. destruct (Nat.eqb_spec q 1); [lia | apply HB; lia].
    - split; [| intros ? ? ? []]. intros q Q. cbn [full jai]. destruct (Nat.eqb_spec q 1); [lia | apply HB; lia].
    - eapply placed_bound; eauto. lia.
  Qed.
  Lemma links_bound side es (f : frame A) out f' : links new keep side es f out f' -> forall B, Forall link_ok es ->
    bounded (full f) B -> 5 <= B ->
    bounded (full f') (B + total_links es) /\ numbers out (B + total_links es).
  Proof.
    induction 1 as [f|e es f out g outs h L Ls IH]; intros B K HB B5; cbn [total_links fold_right].
    - rewrite Nat.add_0_r. split; [exact HB | intros ? ? ? []].
    - inversion K as [|? ? K1 K2]; subst. fold (total_links es).
      destruct (link_bound _ _ _ _ _ _ K1 L HB B5) as (H1 & H2).
      destruct (IH _ K2 H1 ltac:(lia)) as (H3 & H4).
      rewrite Nat.add_assoc. split; [exact H3 |]. apply numbers_app; [eapply numbers_le; [exact H2 | lia] | exact H4].
  Qed.
  Lemma links_total es : Forall link_ok es -> forall (f : frame A) B, bounded (full f) B -> 5 <= B ->
    exists out f', links new keep (fun _ _ => True) es f out f'.
  Proof.
    induction 1 as [|e es K _ IH]; intros f B HB B5.
    - exists [], f. constructor.
    - assert (L : exists out g, link new keep (fun _ _ => True) e f out g).
      { destruct e as [v|c| |t u].
        - destruct (placed_total f 2 v B K HB B5 ltac:(lia)) as (o & g & P). exists o, g. constructor. exact P.
        - eexists _, _. apply link_se. exact K.
        - eexists _, _. apply link_jai. exact I.
        - eexists _, _. apply link_tag. exact I. }
      destruct L as (o & g & L). destruct (link_bound _ _ _ _ _ _ K L HB B5) as (H1 & _).
      destruct (IH g (B + link_count e) H1 ltac:(lia)) as (os & h & Ls).
      exists (o ++ os), h. econstructor; eassumption.
  Qed.

  Lemma bridi_total pre post lc : Forall term_ok pre -> Forall term_ok post -> Forall link_ok lc ->
    exists out, bridi new keep (fun _ _ => True) core pre post lc out.
  Proof.
    intros T1 T2 K.
    assert (K' : Forall link_ok (rev lc)) by (apply Forall_forall; intros x I; rewrite <- in_rev in I; rewrite Forall_forall in K; auto).
    assert (H0 : bounded (fun _ : nat => false) 5) by (intros q _; reflexivity).
    destruct (links_total (rev lc) K' (Frame core (fun _ => false) []) 5 H0 ltac:(lia)) as (o1 & f1 & L).
    destruct (links_bound _ _ _ _ _ L 5 K' H0 ltac:(lia)) as (H1 & _).
    destruct (placed_total f1 1 pre _ T1 H1 ltac:(lia) ltac:(lia)) as (o2 & f2 & P1).
    destruct (placed_bound _ _ _ _ _ _ P1 H1 ltac:(lia) ltac:(lia)) as (H2 & _).
    destruct (placed_total f2 2 post _ T2 H2 ltac:(lia) ltac:(lia)) as (o3 & f3 & P2).
    eexists. econstructor; eassumption.
  Qed.

  Lemma total_rev lc : total_links (rev lc) = total_links lc.
  Proof.
    assert (AP : forall a b, total_links (a ++ b) = total_links a + total_links b).
    { induction a as [|e a IH]; intro b; cbn; [reflexivity |]. fold (total_links (a ++ b)) (total_links a). rewrite IH. lia. }
    induction lc as [|e lc IH]; [reflexivity |]. cbn [rev]. rewrite AP, IH. cbn. fold (total_links lc). lia.
  Qed.

  Lemma bridi_bound side pre post lc out : Forall link_ok lc ->
    bridi new keep side core pre post lc out ->
    numbers out (5 + (total_links lc + unmarked_count pre + unmarked_count post)).
  Proof.
    intros K [o1 f1 o2 f2 o3 f3 L P1 P2].
    assert (K' : Forall link_ok (rev lc)) by (apply Forall_forall; intros x I; rewrite <- in_rev in I; rewrite Forall_forall in K; auto).
    assert (H0 : bounded (fun _ : nat => false) 5) by (intros q _; reflexivity).
    destruct (links_bound _ _ _ _ _ L 5 K' H0 ltac:(lia)) as (H1 & N1).
    destruct (placed_bound _ _ _ _ _ _ P1 H1 ltac:(lia) ltac:(lia)) as (H2 & N2).
    destruct (placed_bound _ _ _ _ _ _ P2 H2 ltac:(lia) ltac:(lia)) as (H3 & N3).
    rewrite total_rev in *.
    repeat apply numbers_app; eapply numbers_le; try eassumption; lia.
  Qed.

  (* ---------- uniqueness ---------- *)
  Lemma unmarked_det f b ts out f' : unmarked f b ts out f' -> forall out2 f2, unmarked f b ts out2 f2 -> out = out2 /\ f' = f2.
  Proof.
    induction 1 as [fu b|fu b n ts p out fu' Bp E T U IH|fu b k n ts out fu' K U IH|fu b n ts out fu' U IH
                   |fu b n ts out fu' U IH|fu b n ts out fu' U IH]; intros out2 f2 U2; inversion U2; subst;
      try (apply IH; assumption); try lia; auto.
    - assert (p = p0).
      { destruct (Nat.lt_trichotomy p p0) as [L|[L|L]]; [| exact L |].
        - match goal with H : forall q, b <= q < p0 -> fu q = true |- _ => rewrite (H p) in E by lia end. discriminate.
        - rewrite (T p0) in * by lia. discriminate. }
      subst p0. match goal with H : unmarked (fill fu p) _ _ _ _ |- _ => destruct (IH _ _ H) as (E1 & E2) end.
      subst. auto.
  Qed.
  Lemma placed_det (f : frame A) b ts o1 f1 o2 f2 : placed f b ts o1 f1 -> placed f b ts o2 f2 -> o1 = o2 /\ f1 = f2.
  Proof.
    intros [p1 g1 U1] [p2 g2 U2]. destruct (unmarked_det _ _ _ _ _ U1 _ _ U2) as (E1 & E2). subst. auto.
  Qed.
  Lemma link_det side e (f : frame A) o1 f1 o2 f2 : link new keep side e f o1 f1 -> link new keep side e f o2 f2 -> o1 = o2 /\ f1 = f2.
  Proof.
    intros L1 L2. destruct L1; inversion L2; subst; auto. eapply placed_det; eassumption.
  Qed.
  Lemma links_det side es (f : frame A) o1 f1 : links new keep side es f o1 f1 ->
    forall o2 f2, links new keep side es f o2 f2 -> o1 = o2 /\ f1 = f2.
  Proof.
    induction 1 as [f|e es f out g outs h L Ls IH]; intros o2 f2 L2; inversion L2; subst; auto.
    match goal with H : link _ _ _ e f _ _ |- _ => destruct (link_det _ _ _ _ _ _ _ L H) as (E1 & E2) end. subst.
    match goal with H : links _ _ _ es _ _ _ |- _ => destruct (IH _ _ H) as (E1 & E2) end. subst. auto.
  Qed.
  Lemma bridi_det side pre post lc o1 o2 :
    bridi new keep side core pre post lc o1 -> bridi new keep side core pre post lc o2 -> o1 = o2.
  Proof.
    intros [a1 f1 a2 f2 a3 f3 L P1 P2] [b1 g1 b2 g2 b3 g3 L' P1' P2'].
    destruct (links_det _ _ _ _ _ L _ _ L') as (E1 & E2). subst.
    destruct (placed_det _ _ _ _ _ _ _ P1 P1') as (E1 & E2). subst.
    destruct (placed_det _ _ _ _ _ _ _ P2 P2') as (E1 & E2). subst. reflexivity.
  Qed.
End GEN.

(* ---------- regular chains show what they mean ---------- *)

Definition shows (g : given (place_type * nat)) : given slot := (fst g, view (snd g)).
Definition like (f : frame slot) (g : frame (place_type * nat)) : Prop :=
  (forall p, what f p = view (what g p)) /\ (forall p, full f p = full g p) /\ hidden f = map view (hidden g).

Lemma unmarked_ext f b ts out f' : unmarked f b ts out f' -> forall g, (forall p, f p = g p) ->
  exists g', unmarked g b ts out g' /\ forall p, f' p = g' p.
Proof.
  induction 1 as [fu b|fu b n ts p out fu' Bp E T U IH|fu b k n ts out fu' K U IH|fu b n ts out fu' U IH
                 |fu b n ts out fu' U IH|fu b n ts out fu' U IH]; intros g G.
  - exists g. split; [constructor | exact G].
  - destruct (IH (fill g p)) as (g' & I1 & I2).
    { intro q. unfold fill. rewrite G. reflexivity. }
    exists g'. split; [| exact I2]. apply um_pos; auto; [rewrite <- G; exact E | intros q Q; rewrite <- G; auto].
  - destruct (IH g G) as (g' & I1 & I2). exists g'. split; [apply um_fa |]; auto.
  - destruct (IH g G) as (g' & I1 & I2). exists g'. split; [apply um_fai |]; auto.
  - destruct (IH g G) as (g' & I1 & I2). exists g'. split; [apply um_fahi |]; auto.
  - destruct (IH g G) as (g' & I1 & I2). exists g'. split; [apply um_tag |]; auto.
Qed.

Lemma named_like f g ts : like f g -> named f ts = map shows (named g ts).
Proof.
  intros (W & _ & H). unfold named. induction ts as [|t ts IH]; [reflexivity |].
  cbn [flat_map]. etransitivity; [| symmetry; apply map_app]. apply f_equal2; [| exact IH]. destruct t as [n|k n|n|n]; try reflexivity.
  destruct (Nat.leb k 5).
  - cbn. unfold shows. cbn. rewrite W. reflexivity.
  - rewrite H. destruct (hidden g); reflexivity.
Qed.

Lemma placed_like f g b ts out f' : like f g -> placed f b ts out f' ->
  exists out' g', placed g b ts out' g' /\ out = map shows out' /\ like f' g'.
Proof.
  intros L [o full' U]. destruct L as (W & F & H) eqn:EL.
  destruct (unmarked_ext _ _ _ _ _ U (fun p => full g p || names p ts)) as (g' & U' & G).
  { intro p. rewrite F. reflexivity. }
  eexists _, _. split; [apply placed_intro; exact U' |]. split.
  - rewrite (named_like f g ts (conj W (conj F H))), map_app, map_map. f_equal.
    apply map_ext. intros (n & p). cbn. unfold shows. cbn. rewrite W. reflexivity.
  - split; [exact W | split; [exact G | exact H]].
Qed.

Lemma link_like e f g out f' : like f g ->
  link jai_slot false (fun f t => full f 1 = false /\ t <> None) e f out f' ->
  exists out' g', link jai_shown true (fun _ _ => True) e g out' g' /\ out = map shows out' /\ like f' g'.
Proof.
  intros L K. destruct K as [c f C|f (E & N)|t u f (E & N)|v f out f' P].
  - eexists _, _. split; [apply link_se; exact C |]. split; [reflexivity |]. destruct L as (W & F & H).
    split; [intro p; apply W | split; [intro p; apply F | exact H]].
  - congruence.
  - eexists _, _. split; [apply link_tag; exact I |]. split; [reflexivity |]. destruct L as (W & F & H).
    split; [| split].
    + intro p. cbn. destruct (Nat.eqb p 1); [reflexivity | apply W].
    + intro p. cbn. destruct (Nat.eqb_spec p 1); [rewrite <- F; auto | apply F].
    + cbn. rewrite W, H. reflexivity.
  - destruct (placed_like _ _ _ _ _ _ L P) as (o & g' & P' & E & L'). exists o, g'.
    split; [apply link_links; exact P' | auto].
Qed.
Lemma links_like es f out f' : links jai_slot false (fun f t => full f 1 = false /\ t <> None) es f out f' ->
  forall g, like f g ->
  exists out' g', links jai_shown true (fun _ _ => True) es g out' g' /\ out = map shows out' /\ like f' g'.
Proof.
  induction 1 as [f|e es f out h outs k L Ls IH]; intros g G.
  - exists [], g. split; [constructor | auto].
  - destruct (link_like _ _ _ _ _ G L) as (o1 & g1 & L1 & E1 & G1).
    destruct (IH g1 G1) as (o2 & g2 & L2 & E2 & G2).
    exists (o1 ++ o2), g2. split; [econstructor; eassumption |]. split; [rewrite map_app; congruence | exact G2].
Qed.

Lemma regular_observed pre post lc out : regular pre post lc out ->
  exists out', observed pre post lc out' /\ out = map shows out'.
Proof.
  intros [o1 f1 o2 f2 o3 f3 L P1 P2].
  assert (G0 : like (Frame Core (fun _ => false) []) (Frame (fun p => (PT_ORD, p)) (fun _ => false) [])).
  { split; [reflexivity | split; reflexivity]. }
  destruct (links_like _ _ _ _ L _ G0) as (o1' & g1 & L' & E1 & G1).
  destruct (placed_like _ _ _ _ _ _ G1 P1) as (o2' & g2 & P1' & E2 & G2).
  destruct (placed_like _ _ _ _ _ _ G2 P2) as (o3' & g3 & P2' & E3 & G3).
  exists (o1' ++ o2' ++ o3'). split; [econstructor; eassumption |]. rewrite !map_app. congruence.
Qed.

Lemma links_weaken A new keep (side side' : frame A -> option (path * path) -> Prop) es f out g :
  (forall f t, side f t -> side' f t) -> links new keep side es f out g -> links new keep side' es f out g.
Proof.
  intros W. induction 1 as [f|e es f out h outs k L Ls IH]; [constructor |].
  econstructor; [| exact IH]. destruct L; constructor; auto.
Qed.

Lemma regular_meaning pre post lc out : regular pre post lc out -> meaning pre post lc out.
Proof.
  intros [o1 f1 o2 f2 o3 f3 L P1 P2]. econstructor; [| exact P1 | exact P2].
  eapply links_weaken; [| exact L]. auto.
Qed.

Lemma no_jai_regular pre post lc out : filter is_jai lc = [] -> meaning pre post lc out -> regular pre post lc out.
Proof.
  intros N [o1 f1 o2 f2 o3 f3 L P1 P2]. econstructor; [| exact P1 | exact P2].
  assert (N' : Forall (fun e => is_jai e = false) (rev lc)).
  { apply Forall_forall. intros x I. rewrite <- in_rev in I. destruct (is_jai x) eqn:E; [| reflexivity].
    assert (In x (filter is_jai lc)) by (apply filter_In; auto). rewrite N in *. contradiction. }
  clear P1 P2 N. revert N'. induction L as [f|e es f oa h outs k L Ls IH]; intro N; [constructor |].
  inversion N; subst. econstructor; [| apply IH; assumption].
  destruct L; cbn in *; try discriminate; constructor; auto.
Qed.

Lemma same_shown xs out : Forall2 same xs out -> map shown_place xs = map (fun g => (fst (fst g), snd g)) (map shows out).
Proof.
  induction 1 as [|x g xs out (E & t & S) _ IH]; [reflexivity |]. cbn [map]. rewrite IH. f_equal.
  unfold shown_place, shows. cbn. rewrite E, S. destruct (snd g); reflexivity.
Qed.

Lemma fits_shows out : fits (map shows out) <-> fits out.
Proof.
  split; intros F n p a I.
  - apply (F n p (view a)). apply in_map_iff. exists (n, Some p, a). auto.
  - apply in_map_iff in I. destruct I as (((m & q) & b) & E & I). inversion E; subst. apply (F _ _ _ I).
Qed.

Lemma regular_places pre post lc out :
  Forall term_ok pre -> Forall term_ok post -> Forall link_ok lc -> regular pre post lc out ->
  fits out -> List.length (filter is_jai lc) <= 19 ->
  exists xs, assign_places pre post lc = Ok xs /\ map shown_place xs = map (fun g => (fst (fst g), snd g)) out.
Proof.
  intros T1 T2 K R F J. destruct (regular_observed _ _ _ _ R) as (out' & O & E). subst out.
  apply fits_shows in F.
  destruct (assign_places_ok _ _ _ _ T1 T2 K O) as [(_ & _ & xs & A & S)|([N|N] & _)]; [| contradiction | lia].
  exists xs. split; [exact A | apply same_shown, S].
Qed.

Lemma few_fit A new keep side core pre post lc out : Forall link_ok lc -> @bridi A new keep side core pre post lc out ->
  total_links lc + unmarked_count pre + unmarked_count post <= 14 -> fits out.
Proof.
  intros K B L n p a I. pose proof (bridi_bound _ _ _ _ _ _ _ _ _ K B n p a I). lia.
Qed.

Lemma few_safe pre post lc : Forall term_ok pre -> Forall term_ok post -> Forall link_ok lc ->
  total_links lc + unmarked_count pre + unmarked_count post <= 14 ->
  List.length (filter is_jai lc) <= 19 ->
  exists xs, assign_places pre post lc = Ok xs.
Proof.
  intros T1 T2 K L J. destruct (bridi_total _ jai_shown true (fun p => (PT_ORD, p)) pre post lc T1 T2 K) as (out & O).
  pose proof (few_fit _ _ _ _ _ _ _ _ _ K O L) as F.
  destruct (assign_places_ok _ _ _ _ T1 T2 K O) as [(_ & _ & xs & A & S)|([N|N] & _)]; [| contradiction | lia].
  exists xs. exact A.
Qed.

(* ---------- sumti without marks ---------- *)

Lemma unmarked_from l : forall f b c, b <= c -> (forall q, b <= q < c -> f q = true) -> (forall q, c <= q -> f q = false) ->
  exists f', unmarked f b (map TRM_POS l) (combine l (seq c (List.length l))) f' /\
    forall q, f' q = f q || (Nat.leb c q && Nat.ltb q (c + List.length l)).
Proof.
  induction l as [|n l IH]; intros f b c L T E.
  - exists f. split; [constructor |]. intro q. cbn [List.length]. rewrite Nat.add_0_r.
    destruct (Nat.leb_spec c q), (Nat.ltb_spec q c); try lia; cbn; rewrite ?orb_false_r; reflexivity.
  - destruct (IH (fill f c) (S c) (S c)) as (f' & U & F); [lia | intros q Q; lia | |].
    { intros q Q. unfold fill. destruct (Nat.eqb_spec q c); [lia | apply E; lia]. }
    exists f'. split.
    + cbn [map List.length seq combine]. apply um_pos; auto.
    + intro q. rewrite F. unfold fill. cbn [List.length].
      destruct (Nat.eqb_spec q c), (Nat.leb_spec (S c) q), (Nat.leb_spec c q), (Nat.ltb_spec q (S c + List.length l)), (Nat.ltb_spec q (c + S (List.length l))); try lia; cbn; rewrite ?orb_true_r, ?orb_false_r; reflexivity.
Qed.

Lemma names_plain p l : names p (map TRM_POS l) = false.
Proof. induction l as [|n l IH]; [reflexivity | exact IH]. Qed.
Lemma named_plain A (f : frame A) l : named f (map TRM_POS l) = [].
Proof. induction l as [|n l IH]; [reflexivity | exact IH]. Qed.
Lemma plain_ok l : Forall term_ok (map TRM_POS l).
Proof. induction l; constructor; cbn; auto. Qed.

Lemma plain_places a b : List.length a <= 19 -> Nat.max 2 (S (List.length a)) + List.length b <= 20 ->
  exists xs, assign_places (map TRM_POS a) (map TRM_POS b) [] = Ok xs /\
    map shown_place xs =
    combine a (map Core (seq 1 (List.length a))) ++
    combine b (map Core (seq (Nat.max 2 (S (List.length a))) (List.length b))).
Proof.
  intros LA LB.
  destruct (unmarked_from a (fun p => false || names p (map TRM_POS a)) 1 1) as (f1 & U1 & F1);
    [lia | intros q Q; lia | intros q Q; rewrite names_plain; reflexivity |].
  set (c := Nat.max 2 (S (List.length a))) in *.
  destruct (unmarked_from b (fun p => f1 p || names p (map TRM_POS b)) 2 c) as (f2 & U2 & F2).
  { unfold c; lia. }
  { intros q Q. rewrite F1, names_plain. unfold c in Q. destruct (Nat.leb_spec 1 q), (Nat.ltb_spec q (1 + List.length a)); try lia; try reflexivity. }
  { intros q Q. rewrite F1, !names_plain. unfold c in Q. destruct (Nat.leb_spec 1 q), (Nat.ltb_spec q (1 + List.length a)); try lia; reflexivity. }
  assert (R : regular (map TRM_POS a) (map TRM_POS b) []
    ([] ++ (named (Frame Core (fun _ => false) []) (map TRM_POS a) ++ map (fun e => (fst e, Some (snd e), Core (snd e))) (combine a (seq 1 (List.length a)))) ++
     (named (Frame Core f1 []) (map TRM_POS b) ++ map (fun e => (fst e, Some (snd e), Core (snd e))) (combine b (seq c (List.length b)))))).
  { eapply (bridi_intro _ _ _ _ _ _ _ _ [] (Frame Core (fun _ => false) []) _ (Frame Core f1 []) _ (Frame Core f2 [])).
    - cbn. constructor.
    - apply (placed_intro _ (Frame Core (fun _ => false) []) 1). exact U1.
    - apply (placed_intro _ (Frame Core f1 []) 2). exact U2. }
  rewrite !named_plain in R. cbn [app] in R.
  destruct (regular_places _ _ _ _ (plain_ok a) (plain_ok b) (Forall_nil _) R) as (xs & A & S).
  - apply fits_app. split; intros n p x I; apply in_map_iff in I; destruct I as ((m & q) & E & I); inversion E; subst;
      apply in_combine_r in I; apply in_seq in I; lia.
  - cbn. lia.
  - exists xs. split; [exact A |]. rewrite S, map_app, !map_map.
    assert (CM : forall (l : list path) k, map (fun e : path * nat => (fst (fst (fst e, Some (snd e), Core (snd e))), snd (fst e, Some (snd e), Core (snd e)))) (combine l k) = combine l (map Core k)).
    { induction l as [|n l IH]; intros [|k ks]; try reflexivity. cbn. f_equal. apply IH. }
    rewrite !CM. reflexivity.
Qed.

Lemma observed_exact pre post lc out :
  Forall term_ok pre -> Forall term_ok post -> Forall link_ok lc -> observed pre post lc out ->
  if_fits (fits out /\ List.length (filter is_jai lc) <= 19)
    (exists xs, assign_places pre post lc = Ok xs) (assign_places pre post lc = UB UB_bounds).
Proof.
  intros T1 T2 K O. destruct (assign_places_ok _ _ _ _ T1 T2 K O) as [(F & J & xs & A & S)|(N & A)].
  - split; [intros _; exists xs; exact A | tauto].
  - split; [| intros _; exact A]. intros (F & J). destruct N; [contradiction | lia].
Qed.
