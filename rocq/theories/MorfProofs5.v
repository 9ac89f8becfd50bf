(* From groups of tokens back to pieces of the text. *)
From Coq Require Import String Ascii List NArith Bool Arith Lia.
From Verif Require Import Base Arr DfaModel DfaTables MorfModel LujvoSpec MorfSpec MorfProofs MorfProofs2 MorfProofs3 MorfProofs4.
Import ListNotations.
Open Scope N_scope.
Open Scope list_scope.

Lemma letters_app u : forall p v, letters p (u ++ v) = letters p u ++ letters (p + length u)%nat v.
Proof.
  induction u as [|c u IH]; intros p v; cbn [app letters List.length].
  - now rewrite Nat.add_0_r.
  - rewrite IH. replace (S p + length u)%nat with (p + S (length u))%nat by lia.
    destruct (Ascii.eqb c ","); reflexivity.
Qed.
Lemma letters_split : forall w p A q c B, letters p w = A ++ (q, c) :: B ->
  exists u v, w = u ++ c :: v /\ q = (p + length u)%nat /\ letters p u = A /\ letters (S q) v = B /\ comma c = false.
Proof.
  induction w as [|d w IH]; intros p A q c B H; cbn [letters] in H; [now destruct A|].
  destruct (Ascii.eqb d ",") eqn:Ed.
  - destruct (IH _ _ _ _ _ H) as (u & v & -> & -> & Hu & Hv & Hc). exists (d :: u), v. cbn [List.length].
    split; [reflexivity|]. split; [lia|]. split; [cbn [letters]; now rewrite Ed|]. split; [exact Hv|exact Hc].
  - destruct A as [|a A]; cbn [app] in H.
    + injection H as <- <- <-. exists [], w. cbn. rewrite Nat.add_0_r. repeat split; auto.
    + injection H as <- H. destruct (IH _ _ _ _ _ H) as (u & v & -> & -> & Hu & Hv & Hc). exists (d :: u), v. cbn [List.length].
      split; [reflexivity|]. split; [lia|]. split; [cbn [letters]; now rewrite Ed, Hu|]. split; [exact Hv|exact Hc].
Qed.
Lemma letters_none : forall w p, letters p w = [] -> forallb comma w = true.
Proof.
  induction w as [|c w IH]; intros p H; [reflexivity|]. cbn [letters forallb] in *. unfold comma at 1.
  destruct (Ascii.eqb c ","); [|discriminate]. exact (IH _ H).
Qed.
Lemma ptoks_app l1 : forall f l2, ptoks f (l1 ++ l2) = ptoks f l1 ++ ptoks (fend f l1) l2.
Proof. induction l1 as [|[p c] l1 IH]; intros f l2; [reflexivity|]. cbn [app ptoks fend]. now rewrite IH. Qed.
Lemma ptoks_split : forall l f A B, ptoks f l = A ++ B -> exists la lb, l = la ++ lb /\ ptoks f la = A /\ ptoks (fend f la) lb = B.
Proof.
  induction l as [|[p c] l IH]; intros f A B H; cbn [ptoks] in H.
  - symmetry in H. apply app_eq_nil in H. destruct H as [-> ->]. exists [], []. auto.
  - destruct A as [|a A].
    + exists [], ((p, c) :: l). split; [reflexivity|]. split; [reflexivity|exact H].
    + cbn [app] in H. injection H as <- H. destruct (IH _ _ _ H) as (la & lb & -> & H1 & H2).
      exists ((p, c) :: la), lb. split; [reflexivity|]. cbn [ptoks fend]. rewrite H1. split; [reflexivity|exact H2].
Qed.
Lemma fend_finv : forall l f, finv f -> Forall (fun x => snd x <> ","%char) l -> finv (fend f l).
Proof.
  induction l as [|[p c] l IH]; intros f Hf Hl; [exact Hf|]. inversion Hl as [|? ? Hc Hl' E]; subst.
  cbn [fend]. apply IH; [|exact Hl']. pose proof (flook_ok f c Hf Hc) as K. destruct (flook f c) as [t e]. exact (proj1 (proj2 K)).
Qed.
Definition starts_letter (p : list ascii) : Prop := exists c r, p = c :: r /\ comma c = false.

(* the first group, and the rest *)
Lemma cut f q w g gl : ptoks f (letters q w) = g ++ concat gl -> starts_letter w -> g <> [] -> Forall (fun g => g <> []) gl ->
  exists pc w', w = pc ++ w' /\ starts_letter pc /\ ptoks f (letters q pc) = g
    /\ ptoks (fend f (letters q pc)) (letters (q + length pc)%nat w') = concat gl
    /\ (gl = [] -> w' = []) /\ (gl <> [] -> starts_letter w').
Proof.
  intros H (c & r & -> & Hc) Ng Ngl. destruct gl as [|h gl].
  - exists (c :: r), []. rewrite !app_nil_r. cbn [concat] in H. rewrite app_nil_r in H.
    split; [reflexivity|]. split; [exists c, r; auto|]. split; [exact H|]. split; [reflexivity|]. split; [reflexivity|contradiction].
  - inversion Ngl as [|? ? Nh _ E]; subst. destruct h as [|[q2 t2] h]; [contradiction|]. cbn [concat app] in H.
    destruct (ptoks_split _ _ _ _ H) as (la & lb & El & H1 & H2).
    destruct lb as [|[q3 c3] lb]; [discriminate|]. cbn [ptoks] in H2. injection H2 as E1 E2 E3. subst q3.
    destruct (letters_split _ _ _ _ _ _ El) as (u & v & Eu & Eq & Hu & Hv & Hc3).
    exists u, (c3 :: v). split; [exact Eu|].
    assert (Su : starts_letter u).
    { destruct u as [|c0 u]; [cbn in Hu; subst la; cbn in H1; congruence|]. cbn [app] in Eu. injection Eu as <- Er. exists c, u. auto. }
    split; [exact Su|]. rewrite Hu. split; [exact H1|].
    split; [|split; [discriminate|intros _; exists c3, v; auto]].
    unfold comma in Hc3. cbn [letters]. rewrite Hc3. cbn [ptoks]. rewrite <- Eq, Hv, E2. cbn [concat app]. f_equal. exact E3.
Qed.

Lemma pieces : forall gl w q f, finv f -> ptoks f (letters q w) = concat gl -> starts_letter w -> gl <> [] ->
  Forall (fun g => g <> []) gl ->
  exists ps, w = concat ps /\ Forall starts_letter ps
    /\ Forall2 (fun pc g => exists f q, finv f /\ ptoks f (letters q pc) = g) ps gl
    /\ (exists pc pr, ps = pc :: pr /\ ptoks f (letters q pc) = hd [] gl)
    /\ offsets q ps = map (fun g => match g with (p, _) :: _ => p | [] => 0%nat end) gl.
Proof.
  induction gl as [|g gl IH]; intros w q f Hf H Hw Ngl Ng; [contradiction|]. inversion Ng as [|? ? Hg Hgl E]; subst.
  cbn [concat] in H. destruct (cut f q w g gl H Hw Hg Hgl) as (pc & w' & -> & Spc & Hpc & Hw' & Hnil & Hcons).
  assert (Off : q = match g with (p, _) :: _ => p | [] => 0%nat end).
  { destruct Spc as (c & r & -> & Hc). cbn [letters] in Hpc. unfold comma in Hc. rewrite Hc in Hpc. cbn [ptoks] in Hpc. now subst g. }
  destruct gl as [|h gl].
  - rewrite (Hnil eq_refl), app_nil_r. exists [pc]. cbn [concat]. rewrite app_nil_r. split; [reflexivity|].
    split; [repeat constructor; exact Spc|]. split; [constructor; [exists f, q; auto|constructor]|].
    split; [exists pc, []; auto|]. cbn [offsets map]. now rewrite <- Off.
  - destruct (IH w' (q + length pc)%nat (fend f (letters q pc))) as (ps & -> & Sp & Fp & _ & Op);
      [apply fend_finv; [exact Hf|apply letters_no_comma]|exact Hw'|apply Hcons; discriminate|discriminate|exact Hgl|].
    exists (pc :: ps). split; [reflexivity|]. split; [now constructor|]. split; [constructor; [exists f, q; auto|exact Fp]|].
    split; [exists pc, ps; auto|]. cbn [offsets]. rewrite Op. cbn [map]. f_equal. exact Off.
Qed.

Lemma fresh_piece f q pc g : finv f -> ptoks f (letters q pc) = g -> first_set g -> ptoks f_init (letters q pc) = g.
Proof.
  intros Hf <- H. destruct (letters q pc) as [|[p c] l] eqn:E; [destruct H|].
  symmetry. apply ptoks_fresh; [exact Hf| |exact H].
  pose proof (letters_no_comma pc q) as F. rewrite E in F. inversion F; subst. assumption.
Qed.

(* ---- positions ---- *)
Definition sh (q : nat) {A} (x : nat * A) : nat * A := ((q + fst x)%nat, snd x).
Lemma letters_sh : forall w q p, letters (q + p)%nat w = map (sh q) (letters p w).
Proof.
  induction w as [|c w IH]; intros q p; [reflexivity|]. cbn [letters].
  replace (S (q + p)) with (q + S p)%nat by lia. rewrite IH. destruct (Ascii.eqb c ","); reflexivity.
Qed.
Lemma ptoks_sh : forall l f q, ptoks f (map (sh q) l) = map (sh q) (ptoks f l).
Proof. induction l as [|[p c] l IH]; intros f q; [reflexivity|]. cbn [map sh fst snd ptoks]. now rewrite IH. Qed.
Lemma toks_sh q w : ptoks f_init (letters q w) = map (sh q) (toks_of w).
Proof. unfold toks_of. rewrite <- ptoks_sh, <- letters_sh. now rewrite Nat.add_0_r. Qed.
Lemma map_snd_sh {A} q (l : list (nat * A)) : map snd (map (sh q) l) = map snd l.
Proof. rewrite map_map. reflexivity. Qed.
Lemma recs_sh : forall l q b, recs b (map (sh q) l) = map (fun n => (q + n)%nat) (recs b l).
Proof.
  induction l as [|[p t] l IH]; intros q b; [reflexivity|]. cbn [map sh fst snd recs]. rewrite IH.
  destruct (tset t && negb (b || tinh t)); reflexivity.
Qed.

(* the recorded y-to-consonant steps *)
Fixpoint cyrecs (a : act) (l : list (nat * N)) : list nat :=
  match l with
  | [] => []
  | (p, t) :: l => match a, tact t with AC_FRZ, AC_SFT => p :: cyrecs (tact t) l | _, _ => cyrecs (tact t) l end
  end.
Lemma cyrecs_sh : forall l q a, cyrecs a (map (sh q) l) = map (fun n => (q + n)%nat) (cyrecs a l).
Proof.
  induction l as [|[p t] l IH]; intros q a; [reflexivity|]. cbn [map sh fst snd cyrecs]. rewrite IH.
  destruct a, (tact t); reflexivity.
Qed.

(* ---- scanning a piece alone ---- *)
Definition after (st : tst) (p : nat) (t s : N) : tst :=
  TSt s
    (if (tset t && negb (ts_inh st || tinh t)) || ts_ini st then p :: ts_starts st else ts_starts st)
    (match ts_last st, tact t with AC_FRZ, AC_SFT => p :: ts_cy st | _, _ => ts_cy st end)
    (ts_inh st || tinh t) false (tact t) (Some p) (ts_p1 st)
    (if att (ts_m st) "AT_S3_3" "AT_XS3_3" then ts_p2 st else ts_h3 st)
    (if att (ts_m st) "AT_S3_4" "AT_XS3_4" then ts_p2 st else ts_h4 st).
Lemma tstep_after st p t : tstep st (p, t) = match nx (ts_m st) t with None => None | Some s => Some (after st p t s) end.
Proof. reflexivity. Qed.
Lemma trun_nrun : forall l st st', trun st l = Some st' -> nrun (Some (ts_m st)) (map snd l) = Some (ts_m st').
Proof.
  induction l as [|[p t] l IH]; intros st st' E; cbn [trun] in E; [now injection E as <-|].
  rewrite tstep_after in E. cbn [map snd nrun nxo]. destruct (nx (ts_m st) t) as [s|]; [|discriminate].
  exact (IH _ _ E).
Qed.
Lemma trun_desc : forall l st m, nrun (Some (ts_m st)) (map snd l) = Some m -> ts_ini st = false ->
  exists st', trun st l = Some st' /\ ts_m st' = m /\ ts_starts st' = rev (recs (ts_inh st) l) ++ ts_starts st
    /\ ts_cy st' = rev (cyrecs (ts_last st) l) ++ ts_cy st.
Proof.
  induction l as [|[p t] l IH]; intros st m E Hi.
  - cbn in E. injection E as <-. exists st. auto.
  - cbn [map snd nrun nxo] in E. cbn [trun recs cyrecs]. rewrite tstep_after.
    destruct (nx (ts_m st) t) as [s|] eqn:Es; [|now rewrite nrun_none in E].
    destruct (IH (after st p t s) m E eq_refl) as (st' & E1 & E2 & E3 & E4).
    exists st'. split; [exact E1|]. split; [exact E2|]. rewrite E3, E4. unfold after. cbn [ts_starts ts_inh ts_cy ts_last].
    rewrite Hi, orb_false_r. split.
    + destruct (tset t && negb (ts_inh st || tinh t)); [|reflexivity]. cbn [rev]. now rewrite <- app_assoc.
    + destruct (ts_last st), (tact t); try reflexivity. cbn [rev]. now rewrite <- app_assoc.
Qed.
Lemma trun_init p t l m : nrun (Some 0) (map snd ((p, t) :: l)) = Some m ->
  exists st', trun t_init ((p, t) :: l) = Some st' /\ ts_m st' = m /\ ts_starts st' = rev (recs (tinh t) l) ++ [p]
    /\ ts_cy st' = rev (cyrecs (tact t) l).
Proof.
  intro E. cbn [map snd nrun nxo] in E. cbn [trun]. rewrite tstep_after. cbn [ts_m t_init].
  destruct (nx 0 t) as [s|] eqn:Es; [|now rewrite nrun_none in E].
  destruct (trun_desc l (after t_init p t s) m E eq_refl) as (st' & E1 & E2 & E3 & E4).
  exists st'. split; [exact E1|]. split; [exact E2|]. rewrite E3, E4. unfold after. cbn [ts_starts ts_inh ts_ini t_init ts_last ts_cy].
  rewrite orb_true_r. split; [reflexivity|]. now rewrite app_nil_r.
Qed.
Lemma trun_ms : forall l st st' h, ts_m st < n_states -> feasible h (map snd l) -> trun st l = Some st' -> ts_m st' < n_states.
Proof.
  induction l as [|[p t] l IH]; intros st st' h Hm F E; cbn [map snd feasible trun] in *; [now injection E as <-|].
  destruct F as [Ht F]. rewrite tstep_after in E. destruct (nx (ts_m st) t) as [m|] eqn:Em; [|discriminate].
  assert (Nt : t <> 0) by (intros ->; rewrite (nx_unk _ Hm) in Em; discriminate).
  destruct (F Nt) as (_ & _ & C). refine (IH _ st' _ _ C E). cbn [ts_m after]. exact (proj2 (nx_ok _ _ Hm Ht) _ Em).
Qed.
(* the piece whose tokens are g, taken alone *)
Lemma piece_scan q pc p t l m : starts_letter pc -> ptoks f_init (letters q pc) = (p, t) :: l -> alone ((p, t) :: l) = Some m ->
  exists st', trun t_init (toks_of pc) = Some st' /\ ts_m st' = m /\ m < n_states
    /\ map (fun n => (q + n)%nat) (ts_starts st') = rev (recs (tinh t) l) ++ [q]
    /\ last (ts_starts st') 1%nat = 0%nat
    /\ map (fun n => (q + n)%nat) (ts_cy st') = rev (cyrecs (tact t) l).
Proof.
  intros (c & r & -> & Hc) E Em. rewrite toks_sh in E. pose proof (feas (c :: r)) as F.
  destruct (toks_of (c :: r)) as [|[p0 t0] l0] eqn:Et; [discriminate|]. cbn [map sh fst snd] in E.
  injection E as E1 E2 E3.
  assert (p0 = 0%nat). { unfold toks_of in Et. cbn [letters] in Et. unfold comma in Hc. rewrite Hc in Et. cbn [ptoks] in Et. now injection Et. }
  subst p0 t0. subst l. unfold alone in Em. cbn [map snd] in Em. rewrite map_snd_sh in Em.
  destruct (trun_init 0%nat t l0 m Em) as (st' & A & B & D & C). exists st'. split; [exact A|]. split; [exact B|].
  split; [rewrite <- B; exact (trun_ms _ t_init st' false zero_state F A)|].
  rewrite D, C, map_app, map_rev, recs_sh. cbn [map]. rewrite Nat.add_0_r. split; [reflexivity|].
  split; [now rewrite last_last|]. now rewrite map_rev, cyrecs_sh.
Qed.
