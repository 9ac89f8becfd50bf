From Coq Require Import String Ascii List NArith ZArith Bool Arith Lia.
From Verif Require Import Base Arr DictModel TransModel TransSpec TransProofs TransProofs2 TransProofs3 TransProofs4.
From Verif Require LujvoModel MorfModel MorfProofs MorfProofs2 DfaModel DfaTables.
Import ListNotations.
Open Scope string_scope.
Open Scope list_scope.

Definition nf {A} (o : outcome A) : Prop := o <> NoFuel.
Lemma nf_ok {A} (a : A) : nf (Ok a). Proof. discriminate. Qed.
Lemma nf_bind {A B} (o : outcome A) (k : A -> outcome B) : nf o -> (forall a, o = Ok a -> nf (k a)) -> nf (obind o k).
Proof. unfold nf. destruct o; cbn [obind]; intros N H; try discriminate; [apply H; reflexivity | congruence]. Qed.

(* ---- the word scanner answers ---- *)
Definition bc_n : N := Eval vm_compute in N.of_nat (List.length (DfaModel.t_exit DfaTables.bc_tables)).
Lemma bc_rows : forallb (fun s => forallb (fun t => match DfaModel.next_state DfaTables.bc_tables (Some s) t with
    | Ok (Some y) => N.ltb y bc_n | Ok None => true | _ => false end) (DfaModel.upto 12)) (DfaModel.upto bc_n) = true.
Proof. vm_compute. reflexivity. Qed.
Lemma bc_map_lt c : (MorfModel.bc_mapchar c < 12)%N.
Proof. apply N.ltb_lt. revert c. apply all_ascii. vm_compute. reflexivity. Qed.
Lemma bc_loop_nf w : forall p cs ns l, (cs < bc_n)%N -> nf (MorfModel.bc_loop p w cs ns l).
Proof.
  induction w as [|c w IH]; intros p cs ns l B; cbn [MorfModel.bc_loop].
  - destruct ns; [| discriminate]. destruct (String.eqb _ _); discriminate.
  - destruct (N.eqb _ 10); [apply IH; exact B |].
    pose proof (MorfProofs.by_upto _ _ (MorfProofs.by_upto _ _ bc_rows cs B) _ (bc_map_lt c)) as H. cbv beta in H.
    destruct (DfaModel.next_state DfaTables.bc_tables (Some cs) (MorfModel.bc_mapchar c)) as [[y|]| | | |]; try discriminate H; [| discriminate].
    cbn [obind]. destruct (String.eqb _ _); [discriminate |]. destruct (String.eqb _ _); [discriminate |]. apply IH. apply N.ltb_lt. exact H.
Qed.
Lemma kind_nf cult w : nf (kind cult w).
Proof.
  unfold kind. apply nf_bind.
  - rewrite MorfProofs2.scan_ok. destruct (MorfProofs2.trun _ _) as [st|]; [| discriminate]. unfold MorfModel.morf_end.
    destruct (MorfModel.category _) as (r & d). destruct r; try discriminate.
    apply nf_bind; [apply bc_loop_nf; vm_compute; reflexivity | discriminate].
  - intros r _. destruct (MorfModel.sc_type r); try discriminate; destruct (MorfModel.sc_hyph r); discriminate.
Qed.

(* ---- glosses of definitions ---- *)
Lemma starred_nf word glue x : nf (starred (S (String.length x)) word glue x).
Proof. destruct (starred_ok word glue (S (String.length x)) x) as (y & E & _); [lia |]. rewrite E. discriminate. Qed.
Lemma fix_nf t ctx w1n : nf (fix_trans_in_context t ctx w1n).
Proof.
  assert (A : forall w, nf (make_plural w)) by (intro; apply starred_nf).
  assert (B : forall w, nf (append_er w)) by (intro; apply starred_nf).
  assert (C : forall w, nf (append_ing w)) by (intro; apply starred_nf).
  unfold fix_trans_in_context. destruct t as [|k t]; [discriminate |]. destruct t as [|s t]; [discriminate |].
  destruct (ascii_dec s ";") as [->|N].
  - destruct (Ascii.eqb k "D" || Ascii.eqb k "E"); [destruct ctx; try discriminate; apply nf_bind; try discriminate; try apply A; destruct (String.eqb w1n ""); try discriminate; apply A |].
    destruct (Ascii.eqb k "S"); [destruct ctx; try discriminate; apply nf_bind; try discriminate; destruct (String.eqb w1n ""); discriminate |].
    destruct (Ascii.eqb k "A"); [destruct ctx; (apply nf_bind; [first [apply B | apply C] | discriminate]) |].
    destruct (Ascii.eqb k "P"); [destruct ctx; discriminate |].
    destruct (Ascii.eqb k "R"); [destruct ctx; discriminate |].
    destruct (Ascii.eqb k "I"); [apply nf_bind; [apply C | destruct ctx; discriminate] | discriminate].
  - destruct s as [[] [] [] [] [] [] [] []]; try discriminate. destruct N. reflexivity.
Qed.

(* ---- pieces ---- *)
Fixpoint plusses (s : string) : nat := match s with "" => 0 | String c s => (if Ascii.eqb c "+" then 1 else 0) + plusses s end.
Lemma plusses_app a b : plusses (a ++ b) = plusses a + plusses b.
Proof. induction a as [|c a IH]; cbn; [reflexivity | rewrite IH; lia]. Qed.
Lemma has_app c a b : has c (a ++ b) = has c a || has c b.
Proof. induction a as [|d a IH]; cbn; [reflexivity | rewrite IH; apply orb_assoc]. Qed.
Definition at_plus (s : string) (p : nat) : Prop := exists a b, s = (a ++ "+" ++ b)%string /\ String.length a = p.
Lemma pieces_from_pos s : forall pre pos at0 cur, String.length pre = pos ->
  exists q rest, pieces_from pos at0 cur s = (at0, q) :: rest /\ Forall (fun x => at_plus (pre ++ s) (fst x)) rest.
Proof.
  induction s as [|c s IH]; intros pre pos at0 cur L; cbn [pieces_from]; [exists cur, []; auto |].
  assert (E : (pre ++ String c s = (pre ++ one c) ++ s)%string) by (rewrite sapp_assoc; reflexivity). destruct (Ascii.eqb c "+") eqn:C.
  - apply Ascii.eqb_eq in C. subst c. destruct (IH (pre ++ "+")%string (S pos) pos "") as (q & rest & R & F); [rewrite slen_app; cbn; lia |].
    rewrite R. exists cur, ((pos, q) :: rest). split; [reflexivity |]. rewrite E. constructor; [| exact F].
    exists pre, s. split; [apply sapp_assoc | exact L].
  - destruct (IH (pre ++ one c)%string (S pos) at0 (cur ++ one c)%string) as (q & rest & R & F); [rewrite slen_app; cbn; lia |].
    change (String c "") with (one c). rewrite R. exists q, rest. split; [reflexivity |]. rewrite E. exact F.
Qed.
Lemma pieces_pos s : pieces s = [] \/ exists q rest, pieces s = (0, q) :: rest /\ Forall (fun x => at_plus s (fst x)) rest.
Proof.
  destruct s as [|c r]; [auto |]. right. unfold pieces. destruct (Ascii.eqb c "+") eqn:C.
  - apply Ascii.eqb_eq in C. subst c. exact (pieces_from_pos r "+" 1 0 "" eq_refl).
  - exact (pieces_from_pos (String c r) "" 0 0 "" eq_refl).
Qed.
Lemma pieces_last b : plusless b -> forall a pos at0 cur, In b (map snd (pieces_from pos at0 cur (a ++ String "+" b))).
Proof.
  intros N a. induction a as [|c a IH]; intros; cbn [String.append pieces_from].
  - cbn. right. rewrite pieces_from_word by assumption. left. reflexivity.
  - destruct (Ascii.eqb c "+"); [right; apply IH | apply IH].
Qed.
Lemma pieces_ends s a b : s = (a ++ "+" ++ b)%string -> (plusless a -> a = "" \/ In a (map snd (pieces s))) /\ (plusless b -> In b (map snd (pieces s))).
Proof.
  intros ->. change ("+" ++ b)%string with (String "+" b). split; intro N.
  - destruct a as [|c a]; [auto |]. right. pose proof N as N'. apply plusless_cons in N'. destruct N' as (C & _).
    unfold pieces. cbn [String.append]. rewrite (proj2 (Ascii.eqb_neq _ _) C). change (String c (a ++ String "+" b)) with (String c a ++ String "+" b)%string.
    rewrite pieces_from_plus by assumption. left. reflexivity.
  - destruct a as [|c a]; cbn [String.append].
    + cbn. rewrite pieces_from_word by assumption. left. reflexivity.
    + unfold pieces. destruct (Ascii.eqb c "+"); [apply pieces_last; assumption |].
      change (String c (a ++ String "+" b)) with (String c a ++ String "+" b)%string. apply pieces_last. assumption.
Qed.
Lemma gather_texts l : forall acc cs, gather_comps l acc = Ok cs ->
  Forall (fun x => String.length (snd x) <= 5) l /\
  (forall c, In c cs -> In (text c) (map text acc ++ map snd l) /\ In (start c) (map start acc ++ map fst l)) /\
  List.length cs <= List.length acc + List.length l.
Proof.
  induction l as [|(p & q) l IH]; intros acc cs; cbn [gather_comps].
  - intro E. injection E as <-. split; [constructor |]. split; [| cbn; lia]. intros c I. cbn [map]. rewrite !app_nil_r. split; apply in_map; exact I.
  - destruct (conversion q) as [k|] eqn:K.
    + destruct acc as [|[s0 p0 t pl] acc]; [discriminate |]. intro E. destruct (IH _ _ E) as (A & B & C). split; [| split].
      * constructor; [| exact A]. cbn [snd]. unfold conversion in K.
        destruct (String.eqb q "se") eqn:Q1; [apply String.eqb_eq in Q1; subst; cbn; lia |].
        destruct (String.eqb q "te") eqn:Q2; [apply String.eqb_eq in Q2; subst; cbn; lia |].
        destruct (String.eqb q "ve") eqn:Q3; [apply String.eqb_eq in Q3; subst; cbn; lia |].
        destruct (String.eqb q "xe") eqn:Q4; [apply String.eqb_eq in Q4; subst; cbn; lia | discriminate].
      * intros c I. destruct (B c I) as (T & S). rewrite !in_app_iff in *. cbn [map text start fst snd] in *. cbn [In] in *. tauto.
      * cbn [List.length] in *. lia.
    + destruct (Nat.leb 32 (List.length acc)); [discriminate |]. destruct (Nat.leb 6 (String.length q)) eqn:Q; [discriminate |].
      apply Nat.leb_gt in Q. intro E. destruct (IH _ _ E) as (A & B & C). split; [| split].
      * constructor; [cbn [snd]; lia | exact A].
      * intros c I. destruct (B c I) as (T & S). rewrite !in_app_iff in *. cbn [map text start fst snd] in *. cbn [In] in *. tauto.
      * cbn [List.length] in *. lia.
Qed.
Lemma gather_tail l p q cs : gather_comps (l ++ [(p, q)]) [] = Ok cs -> forall c, In c (tl cs) -> In (start c) (map fst l).
Proof.
  rewrite gather_app. destruct (gather_comps l []) as [acc| | | |] eqn:G; cbn [obind]; try discriminate. destruct (gather_texts _ _ _ G) as (_ & B & _).
  cbn [gather_comps]. intros E c I. apply (B c). destruct (conversion q).
  - destruct acc as [|[s0 p0 t pl] acc]; [discriminate |]. injection E as <-. right. exact I.
  - destruct (Nat.leb 32 (List.length acc)); [discriminate |]. destruct (Nat.leb 6 (String.length q)); [discriminate |]. injection E as <-. exact I.
Qed.

(* what a successful split gives *)
Lemma pieces_in s q : In q (map snd (pieces s)) -> plusless q /\ forall c, has c s = false -> has c q = false.
Proof.
  assert (P : forall s pos at0 cur q, plusless cur -> In q (map snd (pieces_from pos at0 cur s)) ->
    plusless q /\ forall c, has c s = false -> has c cur = false -> has c q = false).
  { clear. induction s as [|c s IH]; intros pos at0 cur q N; cbn [pieces_from].
    - cbn. intros [<-|[]]. auto.
    - destruct (Ascii.eqb c "+") eqn:C.
      + cbn [map snd]. intros [<-|I]; [auto |]. destruct (IH _ _ "" q (fun x => x) I) as (A & B). split; [exact A |].
        intros e H _. apply B; [| reflexivity]. cbn in H. apply orb_false_iff in H. tauto.
      + apply Ascii.eqb_neq in C. intro I. destruct (fun X => IH _ _ (cur ++ String c "")%string q X I) as (A & B).
        { intro Q. unfold letter_in in Q. rewrite loas_app in Q. apply in_app_or in Q. destruct Q as [Q|[Q|[]]]; [exact (N Q) | congruence]. }
        split; [exact A |]. intros e H K. cbn in H. apply orb_false_iff in H. destruct H as (H1 & H2). apply B; [exact H2 |].
        rewrite has_app, K. cbn. rewrite H1. reflexivity. }
  unfold pieces. destruct s as [|c r]; [intros [] |]. destruct (Ascii.eqb c "+") eqn:C; intro I.
  - destruct (P _ _ _ "" _ (fun x => x) I) as (A & B). split; [exact A |]. intros e H. apply B; [| reflexivity]. cbn in H. apply orb_false_iff in H. tauto.
  - destruct (P _ _ _ "" _ (fun x => x) I) as (A & B). split; [exact A |]. intros e H. apply B; [exact H | reflexivity].
Qed.
Definition atomic (w : string) : Prop := String.length w <= 5 /\ has "+" w = false /\ starless w.
Lemma split_props c cs : split_into_comps c = Ok cs -> starless c ->
  Forall (fun x => atomic (text x)) cs /\
  Forall (fun x => start x = 0 \/ at_plus c (start x)) cs /\ Forall (fun x => at_plus c (start x)) (tl cs) /\
  (forall a b, c = (a ++ "+" ++ b)%string -> (has "+" a = false -> atomic a) /\ (has "+" b = false -> atomic b)) /\
  (has "+" c = false -> List.length cs <= 1).
Proof.
  unfold split_into_comps. intros G S. destruct (gather_texts _ _ _ G) as (L & B & C).
  assert (Q : forall q, In q (map snd (pieces c)) -> atomic q).
  { intros q I. destruct (pieces_in _ _ I) as (A1 & A2). apply in_map_iff in I. destruct I as (x & <- & I).
    rewrite Forall_forall in L. split; [apply L; rewrite <- in_rev; exact I |]. split; [apply has_not; exact A1 |].
    apply has_not. apply A2. apply has_not. exact S. }
  split; [| split; [| split; [| split]]].
  - apply Forall_forall. intros x I. destruct (B x I) as (T & _). cbn [map app] in T. apply Q. rewrite map_rev, <- in_rev in T. exact T.
  - apply Forall_forall. intros x I. destruct (B x I) as (_ & T). cbn [map app] in T. rewrite map_rev, <- in_rev in T.
    destruct (pieces_pos c) as [E|(q & rest & E & F)]; rewrite E in T; cbn [map] in T; [destruct T |]. destruct T as [T|T]; [left; symmetry; exact T |].
    right. rewrite Forall_forall in F. apply in_map_iff in T. destruct T as (y & <- & T). apply F. exact T.
  - apply Forall_forall. intros x I. destruct (pieces_pos c) as [E|(q & rest & E & F)]; rewrite E in *.
    + cbn in G. injection G as <-. destruct I.
    + cbn [rev] in G. pose proof (gather_tail _ _ _ _ G x I) as T. rewrite map_rev, <- in_rev in T. rewrite Forall_forall in F.
      apply in_map_iff in T. destruct T as (y & <- & T). apply F. exact T.
  - intros a b E. destruct (pieces_ends c a b E) as (X & Y). split; intro N; apply has_not in N.
    + destruct (X N) as [->|I]; [| apply Q; exact I]. split; [cbn; lia | split; [reflexivity | intros []]].
    + apply Q. apply Y. exact N.
  - intro N. apply has_not in N. cbn [List.length] in C. rewrite rev_length in C. assert (List.length (pieces c) <= 1); [| lia].
    unfold pieces. destruct c as [|d r]; [cbn; lia |]. pose proof N as N'. apply plusless_cons in N'. destruct N' as (D & _).
    rewrite (proj2 (Ascii.eqb_neq _ _) D), pieces_from_word by assumption. cbn. lia.
Qed.
Lemma sub_prefix a r : substring 0 (String.length a) (a ++ r) = a.
Proof. induction a as [|c a IH]; cbn; [destruct r; reflexivity | rewrite IH; reflexivity]. Qed.
Lemma sub_all s : forall m, String.length s <= m -> substring 0 m s = s.
Proof. induction s as [|c s IH]; intros [|m] L; cbn in *; try reflexivity; [lia |]. rewrite IH by lia. reflexivity. Qed.
Lemma sub_suffix a b : forall m, String.length b <= m -> substring (String.length a + 1) m (a ++ "+" ++ b) = b.
Proof.
  induction a as [|c a IH]; intros m L; [apply sub_all; exact L |]. cbn [String.length Nat.add String.append substring]. apply IH. exact L.
Qed.

Section DICT.
  Variable dict : string -> option string.
  Variable cult : bool.
  Hypothesis no_redirect : forall k r, dict k = Some ("@" ++ r)%string -> letter_in "*" k.
  Notation adv := (adv_translate dict canon (kind cult)).

  Lemma digits_star f : forall n acc, has "*" acc = false -> has "*" (digits f n acc) = false.
  Proof.
    induction f as [|f IH]; intros n acc H; cbn [digits]; [exact H |].
    assert (has "*" (String (ascii_of_N (48 + n mod 10)) acc) = false) as K.
    { cbn [has]. rewrite H, orb_false_r. pose proof (N.mod_lt n 10) as L. remember (n mod 10)%N as m. clear -L. 
      assert (m = 0 \/ m = 1 \/ m = 2 \/ m = 3 \/ m = 4 \/ m = 5 \/ m = 6 \/ m = 7 \/ m = 8 \/ m = 9)%N as X by lia.
      destruct X as [->|[->|[->|[->|[->|[->|[->|[->|[->| ->]]]]]]]]]; reflexivity. }
    destruct (N.eqb _ 0); [exact K | apply IH; exact K].
  Qed.
  Lemma zdec_star z : has "*" (zdec z) = false.
  Proof. unfold zdec. destruct z; [reflexivity | apply digits_star; reflexivity |]. cbn [has]. rewrite digits_star; reflexivity. Qed.
  Lemma entry_plain w p c r : starless w -> entry_for dict (w, p, c) <> Some (String "@" r).
  Proof.
    intros S E. assert (exists k, dict k = Some ("@" ++ r)%string /\ has "*" k = false) as (k & D & H).
    { unfold entry_for in E. apply has_not in S. destruct (asked (w, p, c)) as ((w' & p') & c') eqn:A.
      assert (w' = w) as -> by (unfold asked in A; destruct (p =? 0)%Z; congruence).
      destruct (dict (w ++ zdec p' ++ ctx_letter c')) as [t|] eqn:D; eexists; (split; [first [rewrite E in D; exact D | exact E] |]);
        rewrite !has_app, S, zdec_star; [destruct c'; reflexivity | reflexivity]. }
    apply no_redirect in D. apply has_not in H. contradiction.
  Qed.
  Lemma adv_cases f w p c : starless w -> exists p' c', adv (S f) w p c = adv (S f) w p' c' /\ p' <> 0%Z /\
    (nf (adv (S f) w p' c') \/
     adv (S f) w p' c' = (do m <- attempt_pattern_match dict canon (adv f) w p' c';
       match m with
       | Some t => Ok t
       | None => do u <- translate_unknown canon (kind cult) (adv f) w p' c';
                 match u with Some t => Ok (t ++ "??")%string | None => Ok "??" end
       end)).
  Proof.
    intro S. set (p' := if (p =? 0)%Z then 1%Z else p). set (c' := if (p =? 0)%Z then TCX_VERB else c). exists p', c'.
    assert (N : p' <> 0%Z) by (unfold p'; destruct (Z.eqb_spec p 0); lia).
    split; [| split; [exact N |]].
    - cbn [adv_translate]. unfold adv_body, p', c'. destruct (Z.eqb_spec p 0); [reflexivity |].
      destruct (Z.eqb_spec p 0); [contradiction | reflexivity].
    - pose proof (entry_plain w p' c') as EP. unfold entry_for, asked in EP. cbn [adv_translate]. unfold adv_body.
      destruct (Z.eqb_spec p' 0) as [|_]; [contradiction |]. rewrite sapp_assoc.
      destruct (match dict (w ++ zdec p' ++ ctx_letter c') with Some t => Some t | None => dict (w ++ zdec p')%string end) as [t|] eqn:E.
      + left. destruct t as [|k r]; [discriminate |]. destruct (ascii_dec k "@") as [->|K]; [exfalso; exact (EP r S eq_refl) |].
        assert (H : forall o, nf (do r0 <- fix_trans_in_context (String k r) c' o; match r0 with Some r1 => Ok r1 | None => UB UB_null end)).
        { intro o. apply nf_bind; [apply fix_nf |]. intros [x|] _; discriminate. }
        destruct k as [[] [] [] [] [] [] [] []]; try apply H. destruct K. reflexivity.
      + destruct (dict w); [left; discriminate | right; reflexivity].
  Qed.

  Definition lvl (w : string) : nat := match canon w with Ok (Some c) => plusses c | _ => 0 end.
  Definition enough (f : nat) (w : string) : Prop := starless w /\ (lvl w + 2 <= f \/ atomic w /\ 1 <= f).

  Lemma place_nf c i : nf (place_at c i).
  Proof. unfold place_at. destruct (_ || _); [discriminate |]. destruct (i =? 0)%Z; discriminate. Qed.
  Lemma comp_nf l i : nf (comp_at l i).
  Proof. unfold comp_at. destruct (_ || _); [discriminate |]. destruct (nth_error _ _); discriminate. Qed.
  Lemma gather_nf l : forall acc, nf (gather_comps l acc).
  Proof.
    induction l as [|(p & q) l IH]; intro acc; cbn [gather_comps]; [discriminate |].
    destruct (conversion q); [destruct acc as [|[s0 p0 t pl] acc]; [discriminate | apply IH] |].
    destruct (Nat.leb 32 _); [discriminate |]. destruct (Nat.leb 6 _); [discriminate | apply IH].
  Qed.
  Lemma glue_nf g cs i ctx : (forall x, In x cs -> forall p c, nf (g (text x) p c)) -> nf (glue_comps g cs i ctx).
  Proof.
    induction cs as [|c cs IH]; intro H; [discriminate |]. cbn [glue_comps]. destruct cs as [|d cs].
    - apply nf_bind; [apply place_nf |]. intros x _. apply H. left. reflexivity.
    - apply nf_bind; [apply place_nf |]. intros x _. apply nf_bind; [apply H; left; reflexivity |]. intros t _.
      apply nf_bind; [apply IH; intros y I; apply H; right; exact I | discriminate].
  Qed.
  Lemma subst_nf g base : (forall p c, nf (g base p c)) -> forall n t, String.length t <= n -> nf (subst_base_in_pattern g t base).
  Proof.
    intro H. induction n as [|n IH]; intros t L; [destruct t; [discriminate | cbn in L; lia] |].
    destruct t as [|k t]; [discriminate |]. cbn in L.
    assert (D : nf (do s <- subst_base_in_pattern g t base; Ok (String k s))) by (apply nf_bind; [apply IH; lia | discriminate]).
    destruct (ascii_dec k "%") as [->|K].
    - cbn [subst_base_in_pattern]. destruct t as [|p [|c t]]; try discriminate. apply nf_bind; [apply H |]. intros x _.
      apply nf_bind; [apply IH; cbn in L; lia | discriminate].
    - cbn [subst_base_in_pattern]. rewrite (proj2 (Ascii.eqb_neq _ _) K).
      destruct k as [[] [] [] [] [] [] [] []]; try exact D. destruct K. reflexivity.
  Qed.
  Lemma template_nf g prec suffix gather orig cs i ctx : split_into_comps orig = Ok cs -> starless orig ->
    (gather = 1 \/ gather = 2)%Z ->
    (forall v, (v = "" \/ exists a b, orig = (a ++ "+" ++ b)%string /\ (v = a \/ v = b)) -> forall p c, nf (g v p c)) ->
    nf (lookup_template_match dict g prec suffix gather orig cs i ctx).
  Proof.
    intros SP S GA H. destruct (split_props _ _ SP S) as (_ & P2 & P3 & _ & _).
    assert (T : forall gen v np, (v = "" \/ exists a b, orig = (a ++ "+" ++ b)%string /\ (v = a \/ v = b)) ->
      nf (let key := ("*" ++ zdec (Z.of_nat prec) ++ gen ++ zdec np)%string in
          let full := dict (key ++ ctx_letter ctx)%string in
          match (match full with Some t => Some t | None => dict key end) with
          | None => Ok None
          | Some trans =>
              match trans with
              | String "@" r => match r with
                                | "" => do t <- g v (-48)%Z ctx; Ok (Some t)
                                | String d _ => do t <- g v (digit_value d) ctx; Ok (Some t) end
              | _ => do s <- subst_base_in_pattern g trans v;
                     match full with Some _ => Ok (Some s)
                     | None => fix_trans_in_context s ctx (match dict (key ++ "n")%string with Some x => x | None => "" end) end
              end
          end)).
    { intros gen v np V. cbv zeta.
      set (key := ("*" ++ zdec (Z.of_nat prec) ++ gen ++ zdec np)%string). specialize (H v V).
      assert (D : forall t, nf (do s <- subst_base_in_pattern g t v;
                     match dict (key ++ ctx_letter ctx)%string with Some _ => Ok (Some s)
                     | None => fix_trans_in_context s ctx (match dict (key ++ "n")%string with Some x => x | None => "" end) end)).
      { intro t. apply nf_bind; [eapply subst_nf; [exact H | apply le_n] |]. intros s _. destruct (dict (key ++ ctx_letter ctx)); [discriminate | apply fix_nf]. }
      destruct (match dict (key ++ ctx_letter ctx) with Some t => Some t | None => dict key end) as [t|]; [| discriminate].
      destruct t as [|k t]; [apply D |]. destruct (ascii_dec k "@") as [->|K].
      - destruct t; (apply nf_bind; [apply H | discriminate]).
      - destruct k as [[] [] [] [] [] [] [] []]; try apply D. destruct K. reflexivity. }
    unfold lookup_template_match. apply nf_bind.
    - destruct suffix; repeat (apply nf_bind; [first [apply comp_nf | apply place_nf] |]; intros ? ?); discriminate.
    - intros ((gen & v) & np) E. apply T. unfold comp_at in E. destruct suffix.
      + destruct (_ || _); [discriminate |]. destruct (nth_error cs _) as [c|] eqn:NE; cbn [obind] in E; [| discriminate].
        destruct (place_at c i) as [pl| | | |]; cbn [obind] in E; try discriminate. injection E as _ <- _. apply nth_error_In in NE.
        rewrite Forall_forall in P2. destruct (P2 c NE) as [->|(a & b & EQ & LA)].
        * left. destruct orig; reflexivity.
        * right. exists a, b. split; [exact EQ |]. left. rewrite <- LA, EQ. apply sub_prefix.
      + destruct (_ || _) in E; [discriminate |]. destruct (nth_error cs (Z.to_nat gather)) as [c|] eqn:NE; cbn [obind] in E; [| discriminate].
        destruct (_ || _) in E; [discriminate |]. destruct (nth_error cs (Z.to_nat (gather - 1))) as [c'|]; cbn [obind] in E; [| discriminate].
        destruct (place_at c' i) as [pl| | | |]; cbn [obind] in E; try discriminate. injection E as _ <- _.
        assert (In c (tl cs)) as I.
        { destruct cs as [|c0 cs]; [destruct GA as [-> | ->]; discriminate NE |]. cbn [tl].
          destruct GA as [-> | ->]; [change (Z.to_nat 1) with 1 in NE | change (Z.to_nat 2) with 2 in NE]; cbn in NE;
            [eapply (nth_error_In cs 0) | eapply (nth_error_In cs 1)]; exact NE. }
        rewrite Forall_forall in P3. destruct (P3 c I) as (a & b & EQ & LA). right. exists a, b. split; [exact EQ |]. right.
        rewrite <- LA, EQ. apply sub_suffix. rewrite !slen_app. cbn [String.length]. lia.
  Qed.
  Lemma templates_nf g l orig cs i ctx : split_into_comps orig = Ok cs -> starless orig ->
    (forall v, (v = "" \/ exists a b, orig = (a ++ "+" ++ b)%string /\ (v = a \/ v = b)) -> forall p c, nf (g v p c)) ->
    nf (try_templates dict g l orig cs i ctx).
  Proof.
    intros SP S H. induction l as [|(p & s) l IH]; [discriminate |]. cbn [try_templates].
    apply nf_bind; [apply template_nf; auto |]. intros [t1|] _; [| exact IH]. destruct (negb _); [discriminate |].
    apply nf_bind; [apply template_nf; auto |]. intros [t2|] _; [| exact IH]. destruct (negb _); [discriminate | exact IH].
  Qed.
  Lemma starless_app a b : starless (a ++ b) -> starless a /\ starless b.
  Proof. unfold starless, letter_in. rewrite loas_app. intro H. split; intro I; apply H; apply in_or_app; tauto. Qed.

  Lemma adv_ends f : forall w p c, enough f w -> nf (adv f w p c).
  Proof.
    induction f as [|f IH]; intros w p c (SW & E); [destruct E as [E|(_ & E)]; lia |].
    destruct (adv_cases f w p c SW) as (p' & c' & EQ & NZ & [N|N]); rewrite EQ; [exact N |]. rewrite N. clear EQ N p c.
    destruct (canon_ok w) as (r & C). assert (LV : lvl w = match r with Some c => plusses c | None => 0 end) by (unfold lvl; rewrite C; reflexivity).
    assert (SC : forall c0, r = Some c0 -> starless c0) by (intros c0 ->; eapply canon_star; eauto).
    assert (F1 : forall c0, r = Some c0 -> has "+" c0 = true -> plusses c0 + 2 <= S f).
    { intros c0 -> H. destruct E as [E|((E1 & E2 & _) & _)]; [lia |]. rewrite (canon_short w c0 E1 E2 C) in H. discriminate H. }
    assert (GLUE : forall c0 cs i ctx, 1 <= f -> starless c0 -> split_into_comps c0 = Ok cs -> nf (glue_comps (adv f) cs i ctx)).
    { intros c0 cs i ctx L S0 SP. apply glue_nf. intros x I q k. apply IH. destruct (split_props _ _ SP S0) as (A & _).
      rewrite Forall_forall in A. specialize (A x I). split; [apply A |]. right. auto. }
    apply nf_bind.
    - unfold attempt_pattern_match. rewrite C. cbn [obind]. destruct r as [c0|]; [| discriminate]. destruct (has "+" c0) eqn:H; [| discriminate].
      specialize (F1 c0 eq_refl H). specialize (SC c0 eq_refl). apply nf_bind; [apply gather_nf |]. intros cs SP.
      assert (SUB : forall v, (v = "" \/ exists a b, c0 = (a ++ "+" ++ b)%string /\ (v = a \/ v = b)) -> forall q k, nf (adv f v q k)).
      { intros v V q k. apply IH. destruct (split_props _ _ SP SC) as (_ & _ & _ & P4 & _).
        destruct V as [->|(a & b & EQ & V)]; [split; [intros [] |]; right; split; [split; [cbn; lia | split; [reflexivity | intros []]] | lia] |].
        assert (starless v) as SV.
        { rewrite EQ in SC. apply starless_app in SC. destruct SC as (S1 & S2). apply starless_app in S2. destruct V; subst; tauto. }
        split; [exact SV |]. destruct (has "+" v) eqn:HV.
        - left. unfold lvl. rewrite (canon_plus v HV). assert (plusses c0 = plusses a + 1 + plusses b) as PC by (rewrite EQ, !plusses_app; cbn; lia).
          destruct V; subst v; lia.
        - right. split; [| lia]. destruct (P4 a b EQ). destruct V; subst v; auto. }
      destruct cs as [|x [|y cs]]; [apply templates_nf; auto | | apply templates_nf; auto].
      apply nf_bind; [apply place_nf |]. intros q _. apply nf_bind; [| discriminate]. destruct (split_props _ _ SP SC) as (A & _). inversion A; subst.
      apply IH. split; [apply H2 |]. right. split; [assumption | lia].
    - intros m _. destruct m; [discriminate |]. apply nf_bind; [| intros [u|] _; discriminate].
      assert (LU : nf (translate_lujvo canon (adv f) w p')).
      { unfold translate_lujvo. rewrite C. cbn [obind]. destruct r as [c0|]; [| discriminate]. apply nf_bind; [apply gather_nf |]. intros cs SP.
        destruct (Nat.ltb (List.length cs) 2) eqn:L2; [discriminate |]. apply Nat.ltb_ge in L2. apply nf_bind; [| discriminate].
        apply (GLUE c0); [| auto | exact SP]. destruct (has "+" c0) eqn:H; [specialize (F1 c0 eq_refl H); lia |].
        destruct (split_props _ _ SP (SC c0 eq_refl)) as (_ & _ & _ & _ & P5). specialize (P5 H). lia. }
      unfold translate_unknown. destruct (has "+" w); [exact LU |]. apply nf_bind; [apply kind_nf |]. intros k K.
      destruct k as [| | |h|]; try discriminate; [exact LU |].
      apply nf_bind.
      + unfold translate_fuivla_prefix. destruct (canon_ok (no_commas (substring 0 h w))) as (r' & C'). rewrite C'. cbn [obind].
        destruct r' as [c1|]; [| discriminate]. apply nf_bind; [apply gather_nf |]. intros cs SP. apply (GLUE c1); [| | exact SP].
        * destruct E as [E|((E1 & _) & _)]; [lia |]. destruct (short_no_stage3 cult w h E1 K).
        * eapply canon_star; [exact C' |]. clear -SW. apply has_not in SW. apply has_not. revert h. 
          assert (NC : forall s, has "*" s = false -> has "*" (no_commas s) = false).
          { induction s as [|d s IHs]; [reflexivity |]. cbn [has no_commas]. intro H. apply orb_false_iff in H. destruct H as (H1 & H2).
            destruct (Ascii.eqb d ","); [auto |]. cbn [has]. rewrite H1. auto. }
          intro h. apply NC. clear NC. revert h SW. induction w as [|d w IHw]; intros [|h] SW; try reflexivity. cbn [substring has] in *.
          apply orb_false_iff in SW. destruct SW as (H1 & H2). rewrite H1. exact (IHw h H2).
      + intros l _. destruct (after_hyphen _ _); discriminate.
  Qed.
End DICT.
