From Coq Require Import String List NArith Bool Arith Lia.
From Verif Require Import Base TokData CmavoData TokModel TreeModel ErasureProofs ConnectProofs ConvModel ConvSpec.
Import ListNotations.
Open Scope string_scope.
Open Scope list_scope.

(* ---------------------------------------------------------------- *)
(* the conversion word *)

Lemma se_words_ok w n : In (w, n) se_words <-> lookup_converted_place w = Ok n.
Proof.
  unfold lookup_converted_place. split.
  - intros [H|[H|[H|[H|[]]]]]; injection H as <- <-; reflexivity.
  - destruct (String.eqb_spec w "se") as [->|]; [intro H; injection H as <-; left; reflexivity|].
    destruct (String.eqb_spec w "te") as [->|]; [intro H; injection H as <-; right; left; reflexivity|].
    destruct (String.eqb_spec w "ve") as [->|]; [intro H; injection H as <-; do 2 right; left; reflexivity|].
    destruct (String.eqb_spec w "xe") as [->|]; [intro H; injection H as <-; do 3 right; left; reflexivity|discriminate].
Qed.

Lemma se_leaf x n : cmtest x T_SE = true -> lookup_converted_place (text_of x) = Ok n ->
  match dat x with
      | N_CMAVO t _ _ =>
          if tok_eqb t T_SE then do n <- lookup_converted_place (text_of x); Ok n else Abort
      | _ => UB UB_other
      end = Ok n.
Proof.
  intros T L. unfold cmtest in T. destruct (dat x); try discriminate. rewrite T, L. reflexivity.
Qed.

Lemma skip_bahe_ok bs x cc i : forallb (fun b => cmtest b T_BAhE) bs = true -> cmtest x T_BAhE = false ->
  skip_bahe i (map Leaf bs ++ Leaf x :: cc) = Ok ([(i + List.length bs)%nat], Leaf x).
Proof.
  intros H N. revert i H. induction bs as [|b bs IH]; intros i H; cbn [map app skip_bahe is_cm].
  - rewrite N. cbn. rewrite Nat.add_0_r. reflexivity.
  - cbn [forallb] in H. apply andb_true_iff in H. destruct H as (-> & H). rewrite IH; auto. cbn. do 4 f_equal. lia.
Qed.

Lemma cmtest_other x s t : cmtest x s = true -> s <> t -> cmtest x t = false.
Proof.
  unfold cmtest. destruct (dat x); try discriminate. intros E N. apply tok_eqb_eq in E. subst.
  destruct (tok_eqb s t) eqn:F; auto. apply tok_eqb_eq in F. congruence.
Qed.

Lemma converts_place p ch n q : converts p ch n q ->
  exists c rest r, ch = c :: rest /\ se_place c = Ok (r, n) /\ q = p ++ 0 :: r.
Proof.
  intros [x w rest -> T <- W|bs x cc w rest -> B T <- W]; apply se_words_ok in W.
  - exists (Leaf x), rest, []. split; [reflexivity|]. split; [|reflexivity]. unfold se_place, strip_attitudinal.
    unfold cmtest in T. destruct (dat x) eqn:D; try discriminate. cbn [obind]. rewrite D, T, W. reflexivity.
  - exists (NT "AUGMENTED" (map Leaf bs ++ Leaf x :: cc)), rest, [List.length bs].
    split; [reflexivity|]. split; [|reflexivity]. unfold se_place, strip_attitudinal. cbn [String.eqb Ascii.eqb Bool.eqb].
    destruct (map Leaf bs ++ Leaf x :: cc) eqn:E; [destruct bs; discriminate|]. rewrite <- E.
    rewrite skip_bahe_ok; auto; [|apply (cmtest_other x T_SE); auto; discriminate]. cbn [obind plus].
    unfold cmtest in T. destruct (dat x) eqn:D; try discriminate. rewrite T, W. reflexivity.
Qed.

Lemma converts_range p ch n q : converts p ch n q -> (2 <= n <= 5)%nat.
Proof.
  intros [x w rest _ _ _ W|bs x cc w rest _ _ _ _ W]; destruct W as [W|[W|[W|[W|[]]]]]; injection W as _ <-; lia.
Qed.

(* ---------------------------------------------------------------- *)
(* the table of places *)

Definition holds (pl : list nat) (ops : list op) : Prop :=
  List.length pl = 6 /\ forall k, (1 <= k <= 5)%nat -> nth k pl 0 = enc (place ops k).

Lemma holds_start : holds [0; 1; 2; 3; 4; 5] [].
Proof. split; [reflexivity|]. intros k H. do 6 (destruct k as [|k]; [cbn; lia|]). lia. Qed.

Lemma holds_se pl ops p : (2 <= p <= 5)%nat -> holds pl ops -> exists pl', swap1 p pl = Ok pl' /\ holds pl' (Se p :: ops).
Proof.
  intros Hp (L & H). do 7 (destruct pl as [|? pl]; try discriminate).
  unfold swap1. cbn [nth_error List.length].
  assert (C : (p = 2 \/ p = 3 \/ p = 4 \/ p = 5)%nat) by lia.
  assert (H1 := H 1 ltac:(lia)). assert (H2 := H 2 ltac:(lia)). assert (H3 := H 3 ltac:(lia)).
  assert (H4 := H 4 ltac:(lia)). assert (H5 := H 5 ltac:(lia)). cbn [nth] in *. subst.
  destruct C as [->|[->|[->| ->]]]; (eexists; split; [reflexivity|]); (split; [reflexivity|]); intros k Hk;
    (assert (K : (k = 1 \/ k = 2 \/ k = 3 \/ k = 4 \/ k = 5)%nat) by lia); destruct K as [->|[->|[->|[->| ->]]]]; reflexivity.
Qed.

Lemma holds_jai pl ops : holds pl ops -> holds (clear1 pl) (Jai :: ops).
Proof.
  intros (L & H). do 7 (destruct pl as [|? pl]; try discriminate). split; [reflexivity|]. intros k Hk. specialize (H k Hk).
  destruct k as [|[|k]]; [lia|reflexivity|]. exact H.
Qed.

Lemma transparent_pass ty : transparent ty -> existsb (String.eqb ty) pass_up = true /\ ty <> "SE_TU2".
Proof.
  intro H. split.
  - apply existsb_exists. exists ty. split; [exact H|apply String.eqb_refl].
  - intros ->. unfold transparent in H. cbn [In] in H. repeat (destruct H as [H|H]; [discriminate|]). exact H.
Qed.

Lemma tu2_loop_ok anc ops qs : conversions anc ops qs -> forall pl done, holds pl done ->
  tu2_loop anc pl = Ok (enc (place (rev ops ++ done) 1), qs).
Proof.
  induction 1 as [p ch n q up ops qs Hc Hcs IH|p ty ch up ops qs Ht Hcs IH|p ty ch up ops qs Ht Hcs IH|p ch up Hc
                  |p ch p1 t1 c1 p2 t2 c2 up ops qs Hn Hcs IH|p ch up]; intros pl dn Hh.
  - cbn [tu2_loop]. rewrite String.eqb_refl. destruct (converts_place _ _ _ _ Hc) as (c & rest & r & -> & E & ->).
    rewrite E. cbn [obind]. destruct (holds_se _ _ n (converts_range _ _ _ _ Hc) Hh) as (pl' & -> & Hh'). cbn [obind].
    rewrite (IH _ _ Hh'). cbn [obind rev]. rewrite <- app_assoc. reflexivity.
  - cbn [tu2_loop]. cbn [rev]. rewrite <- app_assoc. destruct Ht as [->| ->]; cbn; apply IH, holds_jai, Hh.
  - cbn [tu2_loop]. destruct (transparent_pass _ Ht) as (E & N). apply String.eqb_neq in N. rewrite N, E. apply IH, Hh.
  - destruct Hc as (p1 & c1 & p2 & c2 & r & ->). cbn [tu2_loop]. cbn. rewrite (proj2 Hh 1) by lia. reflexivity.
  - change (tu2_loop ((p, "SELBRI_4", ch) :: (p1, t1, c1) :: (p2, t2, c2) :: up) pl) with
      (if String.eqb t1 "SELBRI_3" then if String.eqb t2 "SELBRI_3" then Ok (nth 1 pl 0, []) else tu2_loop ((p1, t1, c1) :: (p2, t2, c2) :: up) pl
       else tu2_loop ((p1, t1, c1) :: (p2, t2, c2) :: up) pl).
    destruct (String.eqb_spec t1 "SELBRI_3"); [|apply IH, Hh]. destruct (String.eqb_spec t2 "SELBRI_3"); [|apply IH, Hh].
    exfalso. apply Hn. subst. exists p1, c1, p2, c2, up. reflexivity.
  - cbn [tu2_loop]. cbn. rewrite (proj2 Hh 1) by lia. reflexivity.
Qed.

Lemma compute_ok preset anc q ops qs : conversions anc ops qs -> preset q = false ->
  compute_tu2_conv preset anc q =
    Ok (map (fun d => (d, DontGloss)) qs ++ [(q, Conv (enc (place (rev ops) 1)))]).
Proof.
  intros H P. unfold compute_tu2_conv. rewrite P. rewrite (tu2_loop_ok _ _ _ H _ _ holds_start). cbn [obind].
  rewrite app_nil_r. reflexivity.
Qed.

(* ---------------------------------------------------------------- *)
(* the traversal *)

Section Mark.
Variable preset : path -> bool.

Fixpoint mark_list (anc : list ancestor) (p : path) (i : nat) (l : list tree) : outcome (list cwrite) :=
  match l with
  | [] => Ok []
  | c :: l =>
      do u <- conv_mark_tu2s preset anc (p ++ [i]) c;
      do v <- mark_list anc p (S i) l;
      Ok (u ++ v)
  end.
Lemma mark_nt anc p ty ch : conv_mark_tu2s preset anc p (NT ty ch) =
  mark_list (if String.eqb ty "AUGMENTED" then anc else (p, ty, ch) :: anc) p 0 ch.
Proof.
  cbn [conv_mark_tu2s]. set (a := if String.eqb ty "AUGMENTED" then anc else _).
  match goal with |- ?f 0 ch = _ => set (go := f) end.
  assert (E : forall l i, go i l = mark_list a p i l).
  { induction l as [|c l IH]; intro i; [reflexivity|]. cbn [mark_list]. rewrite <- IH. reflexivity. }
  apply E.
Qed.

(* what is done at a word *)
Definition at_word (anc : list ancestor) (p : path) (x : node) : outcome (list cwrite) :=
  conv_mark_tu2s preset anc p (Leaf x).

Lemma mark_at t : forall anc p ws q x, conv_mark_tu2s preset anc p t = Ok ws ->
  subtree t q = Some (Leaf x) -> exists l ws', ancestors t p q l /\
    at_word (l ++ anc) (p ++ q) x = Ok ws' /\ incl ws' ws.
Proof.
  induction t as [y|ty ch IH] using tree_induction; intros anc p ws q x E Hq.
  - destruct q; [|discriminate]. injection Hq as ->. exists [], ws. split; [constructor|]. rewrite app_nil_r.
    split; [exact E|apply incl_refl].
  - rewrite mark_nt in E. set (a := if String.eqb ty "AUGMENTED" then anc else (p, ty, ch) :: anc) in E.
    destruct q as [|i q]; [discriminate|]. cbn [subtree] in Hq. destruct (nth_error ch i) as [c|] eqn:Hi; [|discriminate].
    assert (L : forall l j ws, mark_list a p j l = Ok ws -> forall k c, nth_error l k = Some c ->
      exists u, conv_mark_tu2s preset a (p ++ [(j + k)%nat]) c = Ok u /\ incl u ws).
    { induction l as [|d l IHl]; intros j w0 E0 k c0 Hk; [destruct k; discriminate|]. cbn [mark_list] in E0.
      destruct (conv_mark_tu2s preset a (p ++ [j]) d) as [u| | | |] eqn:Eu; try discriminate. cbn [obind] in E0.
      destruct (mark_list a p (S j) l) as [v| | | |] eqn:Ev; try discriminate. injection E0 as <-.
      destruct k as [|k]; cbn in Hk.
      - injection Hk as ->. replace (j + 0)%nat with j by lia. exists u. split; [exact Eu|apply incl_appl, incl_refl].
      - destruct (IHl _ _ Ev _ _ Hk) as (u' & E' & I'). exists u'. replace (j + S k)%nat with (S j + k)%nat by lia.
        split; [exact E'|apply incl_appr, I']. }
    destruct (L _ _ _ E _ _ Hi) as (u & Eu & Iu). cbn [plus] in Eu.
    rewrite Forall_forall in IH. destruct (IH c (nth_error_In _ _ Hi) _ _ _ _ _ Eu Hq) as (l & ws' & Ha & Hw & Iw).
    rewrite <- app_assoc in Hw. cbn [app] in Hw.
    exists (if String.eqb ty "AUGMENTED" then l else l ++ [(p, ty, ch)]), ws'. split; [econstructor; eauto|].
    split; [|eapply incl_tran; eauto]. unfold a in Hw. destruct (String.eqb ty "AUGMENTED"); [exact Hw|].
    rewrite <- app_assoc. exact Hw.
Qed.

Lemma ancestors_det t : forall p q l l', ancestors t p q l -> ancestors t p q l' -> l = l'.
Proof.
  intros p q l l' H. revert l'. induction H as [t p|ty ch i c p q l l0 Hn Ha IH E]; intros l' H'.
  - inversion H'. reflexivity.
  - inversion H' as [|? ? ? c2 ? ? l2 ? Hn2 Ha2 E2]; subst. rewrite Hn in Hn2. injection Hn2 as <-.
    rewrite (IH _ Ha2). reflexivity.
Qed.

(* writes of Conv go to words, and only from the word itself *)
Lemma conv_only_here anc p x ws q n : at_word anc p x = Ok ws -> In (q, Conv n) ws -> q = p.
Proof.
  assert (C : forall anc ws, compute_tu2_conv preset anc p = Ok ws -> In (q, Conv n) ws -> q = p).
  { intros a w. unfold compute_tu2_conv. destruct (preset p); [intro E; injection E as <-; intros []|].
    destruct (tu2_loop a [0; 1; 2; 3; 4; 5]) as [[k ds]| | | |]; try discriminate. cbn [obind]. intro E. injection E as <-.
    intro H. apply in_app_or in H. destruct H as [H|[H|[]]]; [|congruence]. apply in_map_iff in H. destruct H as (d & H & _). discriminate. }
  unfold at_word. cbn [conv_mark_tu2s]. destruct (dat x); try (intro E; injection E as <-; intros []).
  - destruct (tok_eqb selmao T_NU); [|intro E; injection E as <-; intros []].
    destruct (up_to_tu2 anc); try discriminate. cbn [obind]. apply C.
  - destruct anc; [discriminate|]. apply C.
Qed.

Lemma mark_from t : forall anc p ws q n, conv_mark_tu2s preset anc p t = Ok ws -> In (q, Conv n) ws ->
  exists r x l ws', q = p ++ r /\ subtree t r = Some (Leaf x) /\ ancestors t p r l /\
    at_word (l ++ anc) q x = Ok ws' /\ In (q, Conv n) ws'.
Proof.
  induction t as [y|ty ch IH] using tree_induction; intros anc p ws q n E Hq.
  - assert (q = p) by (eapply conv_only_here; eauto). subst q. exists [], y, [], ws. rewrite app_nil_r. repeat split; auto. constructor.
  - rewrite mark_nt in E. set (a := if String.eqb ty "AUGMENTED" then anc else (p, ty, ch) :: anc) in E.
    assert (L : forall l j ws, mark_list a p j l = Ok ws -> In (q, Conv n) ws -> exists k c u, nth_error l k = Some c /\
      conv_mark_tu2s preset a (p ++ [(j + k)%nat]) c = Ok u /\ In (q, Conv n) u).
    { induction l as [|d l IHl]; intros j w0 E0 Hw; cbn [mark_list] in E0; [injection E0 as <-; destruct Hw|].
      destruct (conv_mark_tu2s preset a (p ++ [j]) d) as [u| | | |] eqn:Eu; try discriminate. cbn [obind] in E0.
      destruct (mark_list a p (S j) l) as [v| | | |] eqn:Ev; try discriminate. injection E0 as <-.
      apply in_app_or in Hw. destruct Hw as [Hw|Hw].
      - exists 0, d, u. replace (j + 0)%nat with j by lia. auto.
      - destruct (IHl _ _ Ev Hw) as (k & c & u' & Hk & E' & I'). exists (S k), c, u'. replace (j + S k)%nat with (S j + k)%nat by lia. auto. }
    destruct (L _ _ _ E Hq) as (i & c & u & Hi & Eu & Hu). cbn [plus] in Eu. rewrite Forall_forall in IH.
    destruct (IH c (nth_error_In _ _ Hi) _ _ _ _ _ Eu Hu) as (r & x & l & ws' & -> & Hr & Ha & Hw & Iw).
    exists (i :: r), x, (if String.eqb ty "AUGMENTED" then l else l ++ [(p, ty, ch)]), ws'.
    rewrite <- app_assoc. cbn [app]. split; [reflexivity|]. split; [cbn [subtree]; rewrite Hi; exact Hr|].
    split; [econstructor; eauto|]. split; [|rewrite <- app_assoc in Iw; exact Iw]. rewrite <- app_assoc in Hw. cbn [app] in Hw.
    unfold a in Hw. destruct (String.eqb ty "AUGMENTED"); [exact Hw|]. rewrite <- app_assoc. exact Hw.
Qed.

Theorem brivla_conv top ws p x anc ops qs : conv_mark_tu2s preset [] [] top = Ok ws ->
  subtree top p = Some (Leaf x) -> brivla x -> ancestors top [] p anc -> conversions anc ops qs -> preset p = false ->
  (forall n, In (p, Conv n) ws <-> n = enc (place (rev ops) 1)) /\
  Forall (fun q => In (q, DontGloss) ws) qs.
Proof.
  intros E Hp (w & ty & D) Ha Hc Np.
  assert (A : forall ws', at_word anc p x = Ok ws' -> ws' = map (fun d => (d, DontGloss)) qs ++ [(p, Conv (enc (place (rev ops) 1)))]).
  { intros ws' H. unfold at_word in H. cbn [conv_mark_tu2s] in H. rewrite D in H.
    destruct anc as [|a0 anc0]; [discriminate|]. rewrite (compute_ok _ _ _ _ _ Hc Np) in H. injection H as <-. reflexivity. }
  destruct (mark_at _ _ _ _ _ _ E Hp) as (l & ws' & Ha' & Hw & I). cbn [app] in Hw. rewrite app_nil_r in Hw.
  assert (l = anc) by (eapply ancestors_det; eauto). subst l. rewrite (A _ Hw) in I. split.
  - intro n. split.
    + intro H. destruct (mark_from _ _ _ _ _ _ E H) as (r & y & l & wr & Er & Hr & Har & Hwr & In').
      cbn [app] in Er. subst r. rewrite Hp in Hr. injection Hr as <-.
      assert (l = anc) by (eapply ancestors_det; eauto). subst l. rewrite app_nil_r in Hwr. rewrite (A _ Hwr) in In'.
      apply in_app_or in In'. destruct In' as [In'|[In'|[]]]; [|congruence].
      apply in_map_iff in In'. destruct In' as (d & K & _). discriminate.
    + intros ->. apply I. apply in_or_app. right. left. reflexivity.
  - rewrite Forall_forall. intros q Hq. apply I. apply in_or_app. left. apply in_map_iff. eauto.
Qed.

Lemma up_ok a p ch b : Forall (fun c : ancestor => snd (fst c) <> "TANRU_UNIT_2") a ->
  up_to_tu2 (a ++ (p, "TANRU_UNIT_2", ch) :: b) = Ok ((p, "TANRU_UNIT_2", ch) :: b).
Proof.
  induction 1 as [|[[q ty] c] a H _ IH]; [reflexivity|]. cbn [app up_to_tu2]. cbn [fst snd] in H. apply String.eqb_neq in H. rewrite H. exact IH.
Qed.

Lemma compute_total anc q ops qs : conversions anc ops qs -> exists ws, compute_tu2_conv preset anc q = Ok ws.
Proof.
  intro H. destruct (preset q) eqn:P; [|eexists; eapply compute_ok; eauto].
  unfold compute_tu2_conv. rewrite P. eauto.
Qed.

Theorem mark_total top : placed top -> exists ws, conv_mark_tu2s preset [] [] top = Ok ws.
Proof.
  intro H.
  assert (L : forall t anc p, (forall q x l, subtree t q = Some (Leaf x) -> ancestors t p q l ->
    exists ws, at_word (l ++ anc) (p ++ q) x = Ok ws) -> exists ws, conv_mark_tu2s preset anc p t = Ok ws).
  { induction t as [x|ty ch IH] using tree_induction; intros anc p Hw.
    - destruct (Hw [] x [] eq_refl) as (ws & E); [constructor|]. rewrite app_nil_r in E. eauto.
    - rewrite mark_nt. set (a := if String.eqb ty "AUGMENTED" then anc else (p, ty, ch) :: anc).
      assert (K : forall l j, (forall k c, nth_error l k = Some c -> nth_error ch (j + k) = Some c) ->
        exists ws, mark_list a p j l = Ok ws).
      { induction l as [|c l IHl]; intros j Hl; [exists []; reflexivity|]. cbn [mark_list].
        assert (Hc : nth_error ch j = Some c) by (replace j with (j + 0)%nat by lia; apply Hl; reflexivity).
        rewrite Forall_forall in IH. destruct (IH c (nth_error_In _ _ Hc) a (p ++ [j])) as (u & ->).
        { intros q x l' Hq Ha. destruct (Hw (j :: q) x (if String.eqb ty "AUGMENTED" then l' else l' ++ [(p, ty, ch)])) as (ws & E).
          - cbn [subtree]. rewrite Hc. exact Hq.
          - econstructor; eauto.
          - exists ws. rewrite <- E. unfold a. rewrite <- app_assoc. cbn [app].
            destruct (String.eqb ty "AUGMENTED"); [reflexivity|]. rewrite <- app_assoc. reflexivity. }
        cbn [obind]. destruct (IHl (S j)) as (v & ->); [|cbn [obind]; eauto].
        intros k c' Hk. replace (S j + k)%nat with (j + S k)%nat by lia. apply Hl. exact Hk. }
      apply K. intros k c Hk. exact Hk. }
  apply L. intros q x l Hq Ha. cbn [app]. rewrite app_nil_r. destruct (H q x l Hq Ha) as (H1 & H2).
  unfold at_word. cbn [conv_mark_tu2s]. destruct (dat x) eqn:D; eauto.
  - destruct (tok_eqb selmao T_NU) eqn:T; [|eauto].
    destruct H2 as (a & b & ch & p' & ops & qs & -> & Fa & Hc); [unfold cmtest; rewrite D; exact T|].
    rewrite up_ok by exact Fa. cbn [obind]. eapply compute_total; eauto.
  - destruct H1 as (ops & qs & Hc); [exists w, ty; auto|]. destruct l; [inversion Hc|]. eapply compute_total; eauto.
Qed.
End Mark.

(* ---------------------------------------------------------------- *)
(* se only: a permutation *)

Lemma transpose_invol a b k : transpose a b (transpose a b k) = k.
Proof.
  unfold transpose. destruct (Nat.eqb_spec k a) as [->|Na].
  - destruct (Nat.eqb_spec b a) as [->|]; auto. rewrite Nat.eqb_refl. reflexivity.
  - destruct (Nat.eqb_spec k b) as [->|Nb].
    + rewrite Nat.eqb_refl. reflexivity.
    + destruct (Nat.eqb_spec k a); [congruence|]. destruct (Nat.eqb_spec k b); [congruence|reflexivity].
Qed.

Theorem se_permutes ps : (forall k, exists j, place (map Se ps) k = Some j) /\
  (forall j, exists! k, place (map Se ps) k = Some j).
Proof.
  induction ps as [|p ps (IH1 & IH2)]; cbn [map place].
  - split; [eauto|]. intro j. exists j. split; [reflexivity|]. intros k E. congruence.
  - split; [intro k; apply IH1|]. intro j. destruct (IH2 j) as (k & E & U). exists (transpose 1 p k). split.
    + rewrite transpose_invol. exact E.
    + intros k' E'. specialize (U _ E'). rewrite U. apply transpose_invol.
Qed.

Theorem se_twice p ops k : place (Se p :: Se p :: ops) k = place ops k.
Proof. cbn [place]. rewrite transpose_invol. reflexivity. Qed.

(* ---------------------------------------------------------------- *)
(* BAI *)

Fixpoint tag_list (p : path) (i : nat) (l : list tree) : outcome (list cwrite) :=
  match l with
  | [] => Ok []
  | c :: l => do u <- conv_tag_se_bai (p ++ [i]) c; do v <- tag_list p (S i) l; Ok (u ++ v)
  end.
Lemma tag_nt p ty ch : ty <> "SE_BAI" -> ty <> "BAI1" -> conv_tag_se_bai p (NT ty ch) = tag_list p 0 ch.
Proof.
  intros N1 N2. cbn [conv_tag_se_bai]. apply String.eqb_neq in N1, N2. rewrite N1, N2.
  match goal with |- ?f 0 ch = _ => set (go := f) end.
  assert (E : forall l i, go i l = tag_list p i l).
  { induction l as [|c l IH]; intro i; [reflexivity|]. cbn [tag_list]. rewrite <- IH. reflexivity. }
  apply E.
Qed.

Theorem bai_conv t : forall p ws q ch, conv_tag_se_bai p t = Ok ws ->
  (bai_reach t q (NT "SE_BAI" ch) -> forall n r, converts (p ++ q) ch n r -> In (p ++ q ++ [1], BaiConv n) ws /\ In (r, DontGloss) ws) /\
  (bai_reach t q (NT "BAI1" ch) -> In (p ++ q ++ [0], BaiConv 1) ws).
Proof.
  induction t as [x|ty ch0 IH] using tree_induction; intros p ws q ch E.
  - split; intro H; inversion H.
  - assert (G : forall i c, ty <> "SE_BAI" -> ty <> "BAI1" -> nth_error ch0 i = Some c ->
      conv_tag_se_bai p (NT ty ch0) = Ok ws -> exists w, conv_tag_se_bai (p ++ [i]) c = Ok w /\ incl w ws).
    { intros i c N1 N2 Hi E0. rewrite tag_nt in E0 by assumption.
      assert (L : forall l j ws, tag_list p j l = Ok ws -> forall k c, nth_error l k = Some c ->
        exists u, conv_tag_se_bai (p ++ [(j + k)%nat]) c = Ok u /\ incl u ws).
      { induction l as [|d l IHl]; intros j w0 E1 k c0 Hk; [destruct k; discriminate|]. cbn [tag_list] in E1.
        destruct (conv_tag_se_bai (p ++ [j]) d) as [u0| | | |] eqn:Eu; try discriminate. cbn [obind] in E1.
        destruct (tag_list p (S j) l) as [v| | | |] eqn:Ev; try discriminate. injection E1 as <-.
        destruct k as [|k]; cbn in Hk.
        - injection Hk as ->. replace (j + 0)%nat with j by lia. exists u0. split; [exact Eu|apply incl_appl, incl_refl].
        - destruct (IHl _ _ Ev _ _ Hk) as (u' & E' & I'). exists u'. replace (j + S k)%nat with (S j + k)%nat by lia.
          split; [exact E'|apply incl_appr, I']. }
      destruct (L _ _ _ E0 _ _ Hi) as (w & Ew & Iw). exists w. auto. }
    rewrite Forall_forall in IH. split; intro H; inversion H as [t0 E1 E2 E3|ty' ch' i c q' u N1 N2 Hi Hr]; subst.
    + cbn [conv_tag_se_bai] in E. cbn [String.eqb Ascii.eqb Bool.eqb] in E. destruct ch as [|c1 [|c2 rest]]; try discriminate.
      destruct (se_place c1) as [[r n]| | | |] eqn:Es; try discriminate. cbn [obind] in E. injection E as <-.
      intros n' r' Hc. rewrite app_nil_r in Hc. destruct (converts_place _ _ _ _ Hc) as (c' & rest' & r2 & Ec & Ep & ->).
      injection Ec as <- <-. rewrite Es in Ep. injection Ep as <- <-. cbn [app]. split; [left; reflexivity|right; left; reflexivity].
    + destruct (G i c N1 N2 Hi E) as (w & Ew & Iw).
      destruct (IH c (nth_error_In _ _ Hi) _ _ q' ch Ew) as (H1 & _). assert (H2 := H1 Hr).
      intros n r Hc. specialize (H2 n r). rewrite <- app_assoc in H2. destruct (H2 Hc) as (A & B). cbn [app] in *. rewrite <- app_assoc in A. split; apply Iw; assumption.
    + cbn [conv_tag_se_bai] in E. cbn [String.eqb Ascii.eqb Bool.eqb] in E. destruct ch as [|c1 rest]; try discriminate.
      injection E as <-. left. reflexivity.
    + destruct (G i c N1 N2 Hi E) as (w & Ew & Iw).
      destruct (IH c (nth_error_In _ _ Hi) _ _ q' ch Ew) as (_ & H1). specialize (H1 Hr). apply Iw.
      rewrite <- app_assoc in H1. exact H1.
Qed.

Lemma bai_augmented : exists t ws x p,
  conv_tag_se_bai [] t = Ok ws /\ bai_reach t [] t /\ (exists cc se, t = NT "SE_BAI" [Leaf se; NT "AUGMENTED" (Leaf x :: cc)]) /\
  subtree t p = Some (Leaf x) /\ cmtest x T_BAI = true /\
  (forall n, ~ In (p, BaiConv n) ws) /\ In ([0], DontGloss) ws.
Proof.
  set (n := fun s c => Node (N_CMAVO s c false) 1 1 None false None []).
  exists (NT "SE_BAI" [Leaf (n T_SE 1302%N); NT "AUGMENTED" [Leaf (n T_BAI 0%N); Leaf (n T_UI 0%N)]]).
  eexists. exists (n T_BAI 0%N), [1; 0]. split; [vm_compute; reflexivity|]. split; [constructor|].
  split; [eexists; eexists; reflexivity|]. split; [reflexivity|]. split; [reflexivity|]. split.
  - intros k [H|[H|[]]]; discriminate.
  - right. left. reflexivity.
Qed.
