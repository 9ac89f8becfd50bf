From Coq Require Import List NArith ZArith Bool Arith Lia.
From Verif Require Import Base MtModel MtSpec.
Import ListNotations.
Open Scope N_scope.

(* ---- bits ---- *)
Lemma small_bits n a : a < 2 ^ n <-> (forall i, n <= i -> N.testbit a i = false).
Proof.
  split.
  - intros H i I. rewrite <- (N.mod_small a (2 ^ n)) by exact H. apply N.mod_pow2_bits_high. exact I.
  - intro H. assert (E : a = a mod 2 ^ n).
    { apply N.bits_inj. intro i. destruct (N.lt_ge_cases i n) as [L|L]; [rewrite N.mod_pow2_bits_low by exact L; reflexivity | rewrite N.mod_pow2_bits_high by exact L; exact (H i L)]. }
    rewrite E. apply N.mod_lt. apply N.pow_nonzero. discriminate.
Qed.
Lemma small_lxor n a b : a < 2 ^ n -> b < 2 ^ n -> N.lxor a b < 2 ^ n.
Proof. rewrite !small_bits. intros A B i I. rewrite N.lxor_spec, A, B by exact I. reflexivity. Qed.
Lemma small_land n a b : b < 2 ^ n -> N.land a b < 2 ^ n.
Proof. rewrite !small_bits. intros B i I. rewrite N.land_spec, B by exact I. apply andb_false_r. Qed.
Lemma small_div a b n : a < 2 ^ n -> b <> 0 -> a / b < 2 ^ n.
Proof. intros A B. apply N.le_lt_trans with a; [| exact A]. apply N.div_le_upper_bound; [exact B |]. rewrite <- (N.mul_1_l a) at 1. apply N.mul_le_mono_r. lia. Qed.

Lemma high_part n u : u / 2 ^ n * 2 ^ n = N.shiftl (N.shiftr u n) n.
Proof. rewrite N.shiftl_mul_pow2, N.shiftr_div_pow2. reflexivity. Qed.
Lemma high_bits n u i : N.testbit (u / 2 ^ n * 2 ^ n) i = if i <? n then false else N.testbit u i.
Proof.
  rewrite high_part. destruct (N.ltb_spec i n) as [L|L]; [apply N.shiftl_spec_low; exact L |]. rewrite N.shiftl_spec_high' by exact L. rewrite N.shiftr_spec'. f_equal; lia.
Qed.
Lemma high_low n u v : v < 2 ^ n -> u / 2 ^ n * 2 ^ n + v = N.lor (u / 2 ^ n * 2 ^ n) v.
Proof.
  intro V. assert (D : N.land (u / 2 ^ n * 2 ^ n) v = 0).
  { apply N.bits_inj. intro i. rewrite N.land_spec, high_bits, N.bits_0. destruct (N.ltb_spec i n) as [L|L]; [reflexivity |]. rewrite (proj1 (small_bits n v) V i L). apply andb_false_r. }
  rewrite N.add_nocarry_lxor by exact D. apply N.lxor_lor. exact D.
Qed.
Lemma msb_high u : u < 2 ^ 32 -> msb u = u / 2 ^ 31 * 2 ^ 31.
Proof.
  intro U. apply N.bits_inj. intro i. rewrite high_bits. unfold msb. change M31 with (2 ^ 31). rewrite N.land_spec, N.pow2_bits_eqb.
  destruct (N.eqb_spec 31 i) as [<-|E]; [apply andb_true_r |]. rewrite andb_false_r. destruct (N.ltb_spec i 31) as [L|L]; [reflexivity |]. symmetry. apply (proj1 (small_bits 32 u) U). lia.
Qed.
Lemma mix_joined u u' v : u' < 2 ^ 32 -> msb u = msb u' -> mix u v = joined u' v.
Proof.
  intros U E. unfold mix, joined. rewrite E, msb_high by exact U. rewrite high_low by (apply N.mod_lt; discriminate). f_equal. unfold lo. change M300 with (N.ones 31). apply N.land_ones.
Qed.
Lemma lsb_odd v : (if N.eqb (lsb v) 0 then 0 else K) = if N.odd v then 0x9908b0df else 0.
Proof. destruct v as [|[p|p|]]; reflexivity. Qed.
Lemma joined_small u v : u < 2 ^ 32 -> joined u v < 2 ^ 32.
Proof.
  intro U. unfold joined. assert (A : u / 2 ^ 31 < 2) by (apply N.div_lt_upper_bound; [discriminate | exact U]). pose proof (N.mod_lt v (2 ^ 31) ltac:(discriminate)) as B.
  change (2 ^ 32) with (2 * 2 ^ 31). nia.
Qed.
Lemma mod_mod_pow z a b : a <= b -> (z mod 2 ^ b) mod 2 ^ a = z mod 2 ^ a.
Proof.
  intro L. apply N.bits_inj. intro i. destruct (N.lt_ge_cases i a) as [I|I]; [rewrite !N.mod_pow2_bits_low by lia; reflexivity | rewrite !N.mod_pow2_bits_high by lia; reflexivity].
Qed.
Lemma upper x : N.land x 0xffff0000 = x mod 2 ^ 32 / 2 ^ 16 * 2 ^ 16.
Proof.
  apply N.bits_inj. intro i. rewrite high_bits, N.land_spec. change 0xffff0000 with (N.shiftl (N.ones 16) 16).
  destruct (N.ltb_spec i 16) as [L|L]; [rewrite N.shiftl_spec_low by exact L; apply andb_false_r |]. rewrite N.shiftl_spec_high' by exact L.
  destruct (N.lt_ge_cases i 32) as [I|I].
  - rewrite N.mod_pow2_bits_low by exact I. rewrite N.ones_spec_low by lia. apply andb_true_r.
  - rewrite N.mod_pow2_bits_high by exact I. rewrite N.ones_spec_high by lia. apply andb_false_r.
Qed.
Lemma masked z w c : 32 <= w -> c < 2 ^ 32 -> N.land (z mod 2 ^ w) c = N.land (z mod 2 ^ 32) c.
Proof.
  intros W C. apply N.bits_inj. intro i. rewrite !N.land_spec. destruct (N.lt_ge_cases i 32) as [I|I]; [rewrite !N.mod_pow2_bits_low by lia; reflexivity |].
  rewrite (proj1 (small_bits 32 c) C i I), !andb_false_r. reflexivity.
Qed.
Lemma tempered_temper w y : 32 <= w -> tempered w y = temper y.
Proof.
  intro W. unfold tempered, temper, wrap. rewrite !N.shiftr_div_pow2, !N.shiftl_mul_pow2, (masked _ w C1), (masked _ w C2) by (exact W || reflexivity). reflexivity.
Qed.
Lemma temper_small y : y < 2 ^ 32 -> temper y < 2 ^ 32.
Proof.
  intro Y. unfold temper. cbv zeta. repeat (apply small_lxor || (apply small_land; reflexivity) || (apply small_div; [| discriminate]) || exact Y).
Qed.

(* ---- the sequence ---- *)
Lemma seq_small seed x : seeded seed x -> follows x -> forall n, x n < 2 ^ 32.
Proof.
  intros [S0 S1] F n. induction n as [n IH] using (well_founded_induction lt_wf). destruct (Nat.lt_ge_cases n 624) as [L|L].
  - destruct n as [|n]; [rewrite S0; apply N.mod_lt; discriminate |]. rewrite S1 by lia.
    assert (B : forall k, lcg seed k / 2 ^ 16 < 2 ^ 16).
    { intro k. apply N.div_lt_upper_bound; [discriminate |]. change (2 ^ 16 * 2 ^ 16) with (2 ^ 32). destruct k; cbn [lcg]; apply N.mod_lt; discriminate. }
    pose proof (B (2 * (S n - 1))%nat). pose proof (B (2 * (S n - 1) + 1)%nat). change (2 ^ 32) with (2 ^ 16 * 2 ^ 16). nia.
  - replace n with (n - 624 + 624)%nat by lia. rewrite F. apply small_lxor; [apply small_lxor; [apply IH; lia | apply small_div; [apply joined_small; apply IH; lia | discriminate]] | destruct (N.odd _); reflexivity].
Qed.

Section SEQ.
Variable x : nat -> N.
Hypothesis F : follows x.
Hypothesis SM : forall n, x n < 2 ^ 32.

(* ---- reload ---- *)
(* k entries have been written; u and v are the registers with the next two entries *)
Record at_ (base k : nat) (u v : N) (r : regs) : Prop := At {
  a_p0 : p0 r = k; a_p2 : p2 r = (k + 2)%nat; a_pM : pM r = (if (k <=? 226)%nat then k + 398 else k - 226)%nat;
  a_u : msb u = msb (x (base + k)%nat); a_v : v = x (base + k + 1)%nat; a_c : c r = x (base + k + 397)%nat;
  a_old : forall i, (k + 1 <= i < 624)%nat -> m r i = x (base + i)%nat;
  a_new : forall i, (i < k)%nat -> m r i = x (base + 624 + i)%nat;
  a_end : (227 <= k)%nat -> m r 624%nat = x (base + 624)%nat }.
Lemma entry base k u v : msb u = msb (x (base + k)%nat) -> v = x (base + k + 1)%nat ->
  N.lxor (N.lxor (x (base + k + 397)%nat) (N.shiftr (mix u v) 1)) (if N.eqb (lsb v) 0 then 0 else K) = x (base + 624 + k)%nat.
Proof.
  intros U ->. rewrite lsb_odd, (mix_joined _ (x (base + k)%nat)) by (apply SM || exact U). rewrite N.shiftr_div_pow2. change (2 ^ 1) with 2.
  replace (base + 624 + k)%nat with (base + k + 624)%nat by lia. rewrite F. reflexivity.
Qed.
Lemma rd_ok mm i : (i < 625)%nat -> rd mm i = Ok (mm i).
Proof. intro H. unfold rd. destruct (Nat.ltb_spec i 625); [reflexivity | lia]. Qed.
Lemma wr_ok mm i v : (i < 625)%nat -> wr mm i v = Ok (fun j => if Nat.eqb j i then v else mm j).
Proof. intro H. unfold wr. destruct (Nat.ltb_spec i 625); [reflexivity | lia]. Qed.

(* what is read at p2 and pM *)
Lemma read2 base k u v r : at_ base k u v r -> (k + 2 <= 624)%nat -> (k + 2 = 624 -> 227 <= k)%nat -> m r (p2 r) = x (base + (k + 1) + 1)%nat.
Proof.
  intros A L E. rewrite (a_p2 _ _ _ _ _ A). destruct (Nat.eq_dec (k + 2) 624) as [Q|Q].
  - rewrite Q, (a_end _ _ _ _ _ A) by auto. f_equal; lia.
  - rewrite (a_old _ _ _ _ _ A) by lia. f_equal; lia.
Qed.
Lemma readM base k u v r : at_ base k u v r -> (k < 226 \/ 227 <= k)%nat -> (k <= 622)%nat -> m r (pM r) = x (base + (k + 1) + 397)%nat.
Proof.
  intros A K L. rewrite (a_pM _ _ _ _ _ A). destruct (Nat.leb_spec k 226).
  - rewrite (a_old _ _ _ _ _ A) by lia. f_equal; lia.
  - rewrite (a_new _ _ _ _ _ A) by lia. f_equal; lia.
Qed.
Lemma pM_in base k u v r : at_ base k u v r -> (k < 226 \/ 227 <= k)%nat -> (k <= 622)%nat -> (pM r < 625)%nat.
Proof. intros A K L. rewrite (a_pM _ _ _ _ _ A). destruct (Nat.leb_spec k 226); lia. Qed.

Lemma next_at base k u v r y z c' a' b' : at_ base k u v r -> (k < 226 \/ 227 <= k)%nat -> (k <= 622)%nat ->
  y = x (base + 624 + k)%nat -> z = x (base + (k + 1) + 1)%nat -> c' = x (base + (k + 1) + 397)%nat ->
  at_ base (S k) v z (Regs (S (p0 r)) (S (p2 r)) (S (pM r)) a' b' c' (fun i => if Nat.eqb i (p0 r) then y else m r i)).
Proof.
  intros A KK L -> -> ->. destruct A as [A1 A2 A3 A4 A5 A6 A7 A8 A9]. split; cbn [p0 p2 pM c m].
  - lia.
  - lia.
  - rewrite A3. destruct (Nat.leb_spec k 226), (Nat.leb_spec (S k) 226); lia.
  - rewrite A5. do 2 f_equal; lia.
  - f_equal; lia.
  - f_equal; lia.
  - intros i I. destruct (Nat.eqb_spec i (p0 r)); [lia |]. apply A7. lia.
  - intros i I. destruct (Nat.eqb_spec i (p0 r)) as [->|E]; [f_equal; lia |]. apply A8. lia.
  - intro I. destruct (Nat.eqb_spec 624 (p0 r)); [lia |]. apply A9. lia.
Qed.
Lemma stepA_at base k r : at_ base k (a r) (b r) r -> (k < 226 \/ 227 <= k)%nat -> (k <= 622)%nat -> exists r', stepA r = Ok r' /\ at_ base (S k) (b r') (a r') r'.
Proof.
  intros A KK L. unfold stepA. assert (P2 : (p2 r < 625)%nat) by (rewrite (a_p2 _ _ _ _ _ A); lia). assert (P0 : (p0 r < 625)%nat) by (rewrite (a_p0 _ _ _ _ _ A); lia).
  rewrite (rd_ok _ _ P2). cbn [obind]. rewrite (rd_ok _ _ (pM_in _ _ _ _ _ A KK L)). cbn [obind]. rewrite (wr_ok _ _ _ P0). cbn [obind]. eexists. split; [reflexivity |]. cbn [a b].
  apply (next_at _ _ _ _ _ _ _ _ _ _ A KK L); [| apply (read2 _ _ _ _ _ A); lia | exact (readM _ _ _ _ _ A KK L)].
  rewrite (a_c _ _ _ _ _ A). apply entry; [exact (a_u _ _ _ _ _ A) | exact (a_v _ _ _ _ _ A)].
Qed.
Lemma stepB_at base k r : at_ base k (b r) (a r) r -> (k < 226 \/ 227 <= k)%nat -> (k <= 622)%nat -> exists r', stepB r = Ok r' /\ at_ base (S k) (a r') (b r') r'.
Proof.
  intros A KK L. unfold stepB. assert (P2 : (p2 r < 625)%nat) by (rewrite (a_p2 _ _ _ _ _ A); lia). assert (P0 : (p0 r < 625)%nat) by (rewrite (a_p0 _ _ _ _ _ A); lia).
  rewrite (rd_ok _ _ P2). cbn [obind]. rewrite (rd_ok _ _ (pM_in _ _ _ _ _ A KK L)). cbn [obind]. rewrite (wr_ok _ _ _ P0). cbn [obind]. eexists. split; [reflexivity |]. cbn [a b].
  apply (next_at _ _ _ _ _ _ _ _ _ _ A KK L); [| apply (read2 _ _ _ _ _ A); lia | exact (readM _ _ _ _ _ A KK L)].
  rewrite (a_c _ _ _ _ _ A). apply entry; [exact (a_u _ _ _ _ _ A) | exact (a_v _ _ _ _ _ A)].
Qed.
Lemma loopA base n : forall k r, at_ base k (a r) (b r) r -> (k + 2 * n <= 226)%nat ->
  exists r', times n (fun r => do r <- stepA r; stepB r) r = Ok r' /\ at_ base (k + 2 * n) (a r') (b r') r'.
Proof.
  induction n as [|n IH]; intros k r A L; cbn [times]; [exists r; split; [reflexivity |]; replace (k + 2 * 0)%nat with k by lia; exact A |].
  destruct (stepA_at _ _ _ A) as (r1 & E1 & A1); [lia | lia |]. rewrite E1. cbn [obind]. destruct (stepB_at _ _ _ A1) as (r2 & E2 & A2); [lia | lia |]. rewrite E2. cbn [obind].
  destruct (IH _ _ A2) as (r3 & E3 & A3); [lia |]. exists r3. split; [exact E3 |]. replace (k + 2 * S n)%nat with (S (S k) + 2 * n)%nat by lia. exact A3.
Qed.
Lemma loopB base n : forall k r, at_ base k (b r) (a r) r -> (227 <= k)%nat -> (k + 2 * n <= 623)%nat ->
  exists r', times n (fun r => do r <- stepB r; stepA r) r = Ok r' /\ at_ base (k + 2 * n) (b r') (a r') r'.
Proof.
  induction n as [|n IH]; intros k r A G L; cbn [times]; [exists r; split; [reflexivity |]; replace (k + 2 * 0)%nat with k by lia; exact A |].
  destruct (stepB_at _ _ _ A) as (r1 & E1 & A1); [lia | lia |]. rewrite E1. cbn [obind]. destruct (stepA_at _ _ _ A1) as (r2 & E2 & A2); [lia | lia |]. rewrite E2. cbn [obind].
  destruct (IH _ _ A2) as (r3 & E3 & A3); [lia | lia |]. exists r3. split; [exact E3 |]. replace (k + 2 * S n)%nat with (S (S k) + 2 * n)%nat by lia. exact A3.
Qed.
Lemma mid base r : at_ base 226 (a r) (b r) r -> exists r', step_mid r = Ok r' /\ at_ base 227 (b r') (a r') r'.
Proof.
  intro A. unfold step_mid. assert (P2 : (p2 r < 625)%nat) by (rewrite (a_p2 _ _ _ _ _ A); lia). assert (P0 : (p0 r < 625)%nat) by (rewrite (a_p0 _ _ _ _ _ A); lia).
  rewrite (rd_ok _ _ P2). cbn [obind]. rewrite (wr_ok _ _ _ P0). cbn [obind]. rewrite rd_ok by lia. cbn [obind]. rewrite wr_ok by lia. cbn [obind]. eexists. split; [reflexivity |]. cbn [a b].
  pose proof (read2 _ _ _ _ _ A ltac:(lia) ltac:(lia)) as R2. pose proof (entry base 226 (a r) (b r) (a_u _ _ _ _ _ A) (a_v _ _ _ _ _ A)) as E.
  destruct A as [A1 A2 A3 A4 A5 A6 A7 A8 A9]. assert (Z : m r 0%nat = x (base + 624)%nat) by (rewrite A8 by lia; f_equal; lia).
  split; cbn [p0 p2 pM a b c m].
  - lia.
  - lia.
  - reflexivity.
  - rewrite A5. do 2 f_equal; lia.
  - rewrite R2. f_equal; lia.
  - destruct (Nat.eqb_spec 0 (p0 r)); [lia |]. rewrite Z. f_equal; lia.
  - intros i I. destruct (Nat.eqb_spec i 624); [lia |]. destruct (Nat.eqb_spec i (p0 r)); [lia |]. apply A7. lia.
  - intros i I. destruct (Nat.eqb_spec i 624); [lia |]. destruct (Nat.eqb_spec i (p0 r)) as [->|]; [| apply A8; lia]. rewrite A6. rewrite E. f_equal; lia.
  - intros _. rewrite Nat.eqb_refl. destruct (Nat.eqb_spec 0 (p0 r)); [lia |]. exact Z.
Qed.
Lemma reload_ok base t : msb (state t 0%nat) = msb (x base) -> (forall i, (0 < i < 624)%nat -> state t i = x (base + i)%nat) ->
  exists mm, reloadmt t = Ok (Mt 623 0 (keep t) mm) /\ forall i, (i < 624)%nat -> mm i = x (base + 624 + i)%nat.
Proof.
  intros H0 H. unfold reloadmt. rewrite !rd_ok by lia. cbn [obind].
  assert (A0 : at_ base 0 (state t 0%nat) (state t 1%nat) (Regs 0 2 398 (state t 0%nat) (state t 1%nat) (state t 397%nat) (state t))).
  { split; cbn [p0 p2 pM c m]; try reflexivity; try lia.
    - rewrite Nat.add_0_r. exact H0.
    - rewrite H by lia. f_equal; lia.
    - rewrite H by lia. f_equal; lia.
    - intros i I. apply H. lia. }
  destruct (loopA base 113 0 (Regs 0 2 398 (state t 0%nat) (state t 1%nat) (state t 397%nat) (state t)) A0) as (r1 & E1 & A1); [lia |]. rewrite E1. cbn [obind].
  change (0 + 2 * 113)%nat with 226%nat in A1. destruct (mid _ _ A1) as (r2 & E2 & A2). rewrite E2. cbn [obind].
  destruct (loopB base 198 227 _ A2) as (r3 & E3 & A3); [lia | lia |]. rewrite E3. cbn [obind]. change (227 + 2 * 198)%nat with 623%nat in A3.
  rewrite wr_ok by lia. cbn [obind]. eexists. split; [reflexivity |]. intros i I. cbv beta.
  destruct (Nat.eqb_spec i 623) as [->|N]; [| apply (a_new _ _ _ _ _ A3); lia].
  rewrite (a_c _ _ _ _ _ A3). apply entry; [exact (a_u _ _ _ _ _ A3) | exact (a_v _ _ _ _ _ A3)].
Qed.

(* ---- getmt ---- *)
Variable w : N.
Hypothesis W : 32 <= w.
(* j numbers of the present 624 have been given *)
Record ready (base j : nat) (t : mt) : Prop := Ready {
  r_mem : forall i, (i < 624)%nat -> state t i = x (base + i)%nat;
  r_left : left t = (624 - Z.of_nat j)%Z;
  r_next : if Nat.even j then next t = j else next t = S j /\ keep t = temper (x (base + j)%nat) }.
Lemma fresh base t mm : (forall i, (i < 624)%nat -> mm i = x (base + i)%nat) -> (left t - 1 <? 0)%Z = true ->
  reloadmt t = Ok (Mt 623 0 (keep t) mm) -> exists t', getmt w t = Ok (t', temper (x base)) /\ ready base 1 t'.
Proof.
  intros H L R. unfold getmt. rewrite L, R. cbn [obind fst snd Z.odd negb next state]. rewrite !rd_ok by lia. cbn [obind]. rewrite !tempered_temper by exact W. rewrite !H by lia. rewrite Nat.add_0_r.
  eexists. split; [reflexivity |]. split; cbn [state left next keep Nat.even]; [exact H | reflexivity | auto].
Qed.
Lemma first_call t : msb (state t 0%nat) = msb (x 0%nat) -> (forall i, (0 < i < 624)%nat -> state t i = x i) -> left t = 0%Z ->
  exists t', getmt w t = Ok (t', temper (x 624%nat)) /\ ready 624 1 t'.
Proof.
  intros H0 H L. destruct (reload_ok 0 t H0 H) as (mm & R & M). apply (fresh 624 t mm); [exact M | rewrite L; reflexivity | exact R].
Qed.
Lemma next_call base j t : (1 <= j <= 624)%nat -> ready base j t ->
  exists t', getmt w t = Ok (t', temper (x (base + j)%nat)) /\ (if (j =? 624)%nat then ready (base + 624) 1 t' else ready base (S j) t').
Proof.
  intros J [M L X]. destruct (Nat.eqb_spec j 624) as [->|N].
  - destruct (reload_ok base t) as (mm & R & MM); [rewrite M by lia; rewrite Nat.add_0_r; reflexivity | intros i I; apply M; lia |].
    apply (fresh (base + 624) t mm); [exact MM | rewrite L; reflexivity | exact R].
  - unfold getmt. destruct (Z.ltb_spec (left t - 1) 0) as [Q|Q]; [lia |]. cbn [obind fst snd].
    assert (P : Z.odd (left t - 1) = Nat.even j).
    { rewrite L. replace (624 - Z.of_nat j - 1)%Z with (- (Z.of_nat (S j) - 624))%Z by lia. rewrite Z.odd_opp, Z.odd_sub. change (Z.odd 624) with false. rewrite xorb_false_r.
      replace (Z.of_nat (S j)) with (Z.succ (Z.of_nat j)) by lia. rewrite Z.odd_succ. rewrite <- (Nat2N.id j). generalize (N.of_nat j). intro n. rewrite N_nat_Z. induction n as [|n IH] using N.peano_ind; [reflexivity |].
      rewrite N2Z.inj_succ, Z.even_succ, N2Nat.inj_succ, Nat.even_succ, <- Nat.negb_even, <- Z.negb_even, IH. reflexivity. }
    rewrite P. destruct (Nat.even j) eqn:E; cbn [negb].
    + rewrite X. assert (J2 : (j <= 622)%nat). { destruct (Nat.eq_dec j 623) as [->|]; [discriminate E | lia]. }
      rewrite !rd_ok by lia. cbn [obind]. rewrite !tempered_temper by exact W. rewrite !M by lia. eexists. split; [reflexivity |].
      split; cbn [state left next keep]; [exact M | lia |]. rewrite Nat.even_succ, <- Nat.negb_even, E. cbn [negb]. auto.
    + destruct X as [X1 X2]. rewrite X2. eexists. split; [reflexivity |]. split; cbn [state left next keep]; [exact M | lia |]. rewrite Nat.even_succ, <- Nat.negb_even, E. exact X1.
Qed.
Lemma later n : forall base j t, (1 <= j <= 624)%nat -> ready base j t ->
  numbers w n t = Ok (map (fun i => temper (x (base + j + i)%nat)) (seq 0 n)).
Proof.
  induction n as [|n IH]; intros base j t J R; cbn [numbers seq map]; [reflexivity |].
  destruct (next_call base j t J R) as (t' & E & R'). rewrite E. cbn [obind fst snd]. rewrite N.mod_small by (apply temper_small, SM). rewrite Nat.add_0_r.
  assert (Y : numbers w n t' = Ok (map (fun i => temper (x (base + j + i)%nat)) (seq 1 n))).
  { rewrite <- seq_shift, map_map. destruct (Nat.eqb_spec j 624) as [->|N].
    - rewrite (IH (base + 624)%nat 1%nat t' ltac:(lia) R'). f_equal. apply map_ext. intro i. do 2 f_equal; lia.
    - rewrite (IH base (S j) t' ltac:(lia) R'). f_equal. apply map_ext. intro i. do 2 f_equal; lia. }
  rewrite Y. reflexivity.
Qed.
Lemma all_numbers n t : msb (state t 0%nat) = msb (x 0%nat) -> (forall i, (0 < i < 624)%nat -> state t i = x i) -> left t = 0%Z ->
  numbers w n t = Ok (map (fun i => temper (x (624 + i)%nat)) (seq 0 n)).
Proof.
  intros H0 H L. destruct n as [|n]; [reflexivity |]. cbn [numbers]. destruct (first_call t H0 H L) as (t' & E & R). rewrite E. cbn [obind fst snd].
  rewrite N.mod_small by (apply temper_small, SM). rewrite (later n 624 1 t' ltac:(lia) R). cbn [obind seq map]. rewrite <- seq_shift, map_map. reflexivity.
Qed.
End SEQ.

(* ---- the seed ---- *)
Lemma lcg_step w y seed n : 32 <= w -> y mod 2 ^ 32 = lcg seed n -> wrap w (69069 * y + 1) mod 2 ^ 32 = lcg seed (S n).
Proof.
  intros W E. unfold wrap. rewrite mod_mod_pow by exact W. cbn [lcg]. rewrite <- E. rewrite (N.add_mod (69069 * y)), (N.mul_mod 69069 y) by discriminate.
  rewrite (N.add_mod (69069 * (y mod 2 ^ 32))), (N.mul_mod 69069 (y mod 2 ^ 32)) by discriminate. rewrite (N.mod_mod y) by discriminate. reflexivity.
Qed.
Lemma seed_ok w seed : 32 <= w -> forall n m0 s y, (0 < s)%nat -> (s + n <= 624)%nat -> y mod 2 ^ 32 = lcg seed (2 * (s - 1)) ->
  exists m', seed_loop w n m0 s y = Ok m' /\ (forall i, (i < s)%nat -> m' i = m0 i) /\
    forall i, (s <= i < s + n)%nat -> m' i = lcg seed (2 * (i - 1)) / 2 ^ 16 * 2 ^ 16 + lcg seed (2 * (i - 1) + 1) / 2 ^ 16.
Proof.
  intro W. induction n as [|n IH]; intros m0 s y P L E; cbn [seed_loop].
  - exists m0. split; [reflexivity |]. split; [reflexivity | lia].
  - rewrite wr_ok by lia. cbn [obind].
    set (v := N.lor (N.land y 0xffff0000) (N.shiftr (N.land (wrap w (69069 * y + 1)) 0xffff0000) 16)).
    assert (E1 : wrap w (69069 * y + 1) mod 2 ^ 32 = lcg seed (S (2 * (s - 1)))) by (apply lcg_step; assumption).
    assert (E2 : wrap w (69069 * wrap w (69069 * y + 1) + 1) mod 2 ^ 32 = lcg seed (2 * (S s - 1))).
    { replace (2 * (S s - 1))%nat with (S (S (2 * (s - 1)))) by lia. apply lcg_step; assumption. }
    destruct (IH (fun j => if Nat.eqb j s then v else m0 j) (S s) _ ltac:(lia) ltac:(lia) E2) as (m' & R & B & A). exists m'. split; [exact R |]. split.
    + intros i I. rewrite B by lia. destruct (Nat.eqb_spec i s); [lia | reflexivity].
    + intros i I. destruct (Nat.eq_dec i s) as [->|D]; [| apply A; lia]. rewrite B by lia. rewrite Nat.eqb_refl. unfold v.
      rewrite !upper, E, E1. rewrite N.shiftr_div_pow2, N.div_mul by discriminate. replace (S (2 * (s - 1))) with (2 * (s - 1) + 1)%nat by lia. symmetry. apply high_low.
      apply N.div_lt_upper_bound; [discriminate |]. change (2 ^ 16 * 2 ^ 16) with (2 ^ 32). rewrite Nat.add_1_r. cbn [lcg]. apply N.mod_lt. discriminate.
Qed.
Lemma msb_mod u : msb (u mod 2 ^ 32) = msb u.
Proof.
  apply N.bits_inj. intro i. unfold msb. change M31 with (2 ^ 31). rewrite !N.land_spec, N.pow2_bits_eqb. destruct (N.eqb_spec 31 i) as [<-|E]; [| rewrite !andb_false_r; reflexivity].
  rewrite N.mod_pow2_bits_low by reflexivity. reflexivity.
Qed.
Lemma twister w seed n x : 32 <= w -> seeded seed x -> follows x -> main w seed n = Ok (map (fun i => temper (x (624 + i)%nat)) (seq 0 n)).
Proof.
  intros W S F. unfold main, seedmt. rewrite wr_ok by lia. cbn [obind].
  destruct (seed_ok w seed W 623 (fun j => if Nat.eqb j 0 then seed else state mt0 j) 1 seed ltac:(lia) ltac:(lia) eq_refl) as (m' & R & B & A). rewrite R. cbn [obind].
  pose proof (seq_small seed x S F) as SM. destruct S as [S0 S1].
  apply (all_numbers x F SM w W); cbn [state left].
  - rewrite B by lia. cbn [Nat.eqb]. rewrite S0. symmetry. apply msb_mod.
  - intros i I. rewrite A by lia. rewrite S1 by lia. reflexivity.
  - reflexivity.
Qed.

(* ---- there is such a sequence, and only one ---- *)
Fixpoint win (f : nat -> N) (n : nat) : nat -> N :=
  match n with
  | O => f
  | S n => let g := win f n in fun i => if Nat.ltb i 623 then g (S i) else N.lxor (N.lxor (g 397%nat) (joined (g 0%nat) (g 1%nat) / 2)) (if N.odd (g 1%nat) then 0x9908b0df else 0)
  end.
Lemma win_shift f n i k : (i + k < 624)%nat -> win f (n + k) i = win f n (i + k)%nat.
Proof.
  revert i. induction k as [|k IH]; intros i L; [rewrite !Nat.add_0_r; reflexivity |]. rewrite Nat.add_succ_r. cbn [win]. destruct (Nat.ltb_spec i 623); [| lia]. rewrite IH by lia. f_equal; lia.
Qed.
Lemma exists_seq seed : exists x, seeded seed x /\ follows x.
Proof.
  set (f := fun i => if Nat.eqb i 0 then seed mod 2 ^ 32 else lcg seed (2 * (i - 1)) / 2 ^ 16 * 2 ^ 16 + lcg seed (2 * (i - 1) + 1) / 2 ^ 16).
  exists (fun n => win f n 0). split.
  - split; [reflexivity |]. intros i I. change i with (0 + i)%nat at 1. rewrite win_shift by lia. cbn [win Nat.add]. unfold f. destruct (Nat.eqb_spec i 0); [lia | reflexivity].
  - intro k. replace (k + 624)%nat with (S k + 623)%nat by lia. rewrite win_shift by lia. cbn [Nat.add]. cbn [win]. destruct (Nat.ltb_spec 623 623); [lia |].
    rewrite (win_shift f k 0 397), (win_shift f k 0 1) by lia. reflexivity.
Qed.
Lemma not_zero seed x : seeded seed x -> x 1%nat <> 0 \/ x 2%nat <> 0.
Proof.
  intros [_ S]. pose proof (S 1%nat ltac:(lia)) as X1. pose proof (S 2%nat ltac:(lia)) as X2. change (2 * (1 - 1))%nat with 0%nat in X1. change (2 * (2 - 1))%nat with 2%nat in X2. change (0 + 1)%nat with 1%nat in X1.
  rewrite X1, X2. destruct (N.eq_dec (lcg seed 0 / 2 ^ 16 * 2 ^ 16 + lcg seed 1 / 2 ^ 16) 0) as [E|E]; [right | left; exact E].
  apply N.eq_add_0 in E. destruct E as [A B]. apply N.eq_mul_0 in A. destruct A as [A|A]; [| discriminate A].
  apply N.div_small_iff in A; [| discriminate]. apply N.div_small_iff in B; [| discriminate].
  change (lcg seed 2) with ((69069 * lcg seed 1 + 1) mod 2 ^ 32). change (lcg seed 1) with ((69069 * lcg seed 0 + 1) mod 2 ^ 32) in *. set (l := lcg seed 0) in *.
  assert (Z : l = 0 \/ l = 62184).
  { change (2 ^ 16) with 65536 in *. change (2 ^ 32) with 4294967296 in *.
    pose proof (N.div_mod (69069 * l + 1) 4294967296 ltac:(discriminate)) as D. assert (q2 : (69069 * l + 1) / 4294967296 < 2) by (apply N.div_lt_upper_bound; lia).
    set (r := (69069 * l + 1) mod 4294967296) in *. set (q := (69069 * l + 1) / 4294967296) in *. clearbody r q. assert (q = 0 \/ q = 1) as [->| ->] by lia; [left | right]; lia. }
  intro Q. apply N.eq_add_0 in Q. destruct Q as [Q _]. clearbody l. destruct Z as [-> | ->]; vm_compute in Q; discriminate Q.
Qed.
