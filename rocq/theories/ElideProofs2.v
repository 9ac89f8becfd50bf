(* The buffer. *)
From Coq Require Import String List NArith Bool Arith Sorted Lia.
From Verif Require Import Base TokData TokModel StreamModel StreamSpec ElideModel ElideSpec ElideProofs.
Import ListNotations.
Open Scope list_scope.

Notation length := List.length.

Lemma get_ok {A} (l : list A) i x : nth_error l i = Some x -> get l i = Ok x.
Proof. unfold get. intros ->. reflexivity. Qed.
Lemma set_ok {A} : forall (l : list A) i y, i < length l ->
  exists l', set l i y = Ok l' /\ length l' = length l /\ forall j, nth_error l' j = if Nat.eqb j i then Some y else nth_error l j.
Proof.
  induction l as [|a l IH]; intros i y Hi; [cbn in Hi; lia|]. destruct i as [|i]; cbn [set].
  - exists (y :: l). repeat split. intros [|j]; reflexivity.
  - destruct (IH i y) as (l' & -> & Hl & Hn); [cbn in Hi; lia|]. exists (a :: l'). split; [reflexivity|]. cbn [length]. split; [lia|].
    intros [|j]; [reflexivity|]. cbn [nth_error Nat.eqb]. apply Hn.
Qed.

Definition rows_ok (c : list (list (option N))) : Prop := forall k row, nth_error c k = Some row -> length row = k / 32 + 1.
Definition bits (c : list (list (option N))) (n : nat) (x : nat -> nat -> bool) : Prop :=
  forall k j, k < n -> j <= k -> is_set c k j = Ok (x k j).
Lemma bank_le j k : j <= k -> j / 32 < k / 32 + 1.
Proof. intro H. pose proof (Nat.div_le_mono j k 32 ltac:(lia) H). lia. Qed.

Lemma bits_ext c n x y : (forall k j, k < n -> j <= k -> x k j = y k j) -> bits c n x -> bits c n y.
Proof. intros E H k j Hk Hj. rewrite <- E by assumption. apply H; assumption. Qed.
Lemma bits_less c n n' x : n' <= n -> bits c n x -> bits c n' x.
Proof. intros Hn H k j Hk Hj. apply H; lia. Qed.

Lemma is_set_inv c k j b : is_set c k j = Ok b ->
  exists row z, nth_error c k = Some row /\ nth_error row (j / 32) = Some (Some z) /\ b = N.testbit z (N.of_nat (j mod 32)).
Proof.
  unfold is_set, get. destruct (nth_error c k) as [row|] eqn:E1; [|discriminate]. cbn [obind].
  destruct (nth_error row (j / 32)) as [[z|]|] eqn:E2; cbn [obind init]; try discriminate. intro H. exists row, z. repeat split; congruence.
Qed.
Lemma is_set_of c k j row z : nth_error c k = Some row -> nth_error row (j / 32) = Some (Some z) ->
  is_set c k j = Ok (N.testbit z (N.of_nat (j mod 32))).
Proof. intros H1 H2. unfold is_set, get. rewrite H1. cbn [obind]. rewrite H2. reflexivity. Qed.

Lemma same_bit j j' : j / 32 = j' / 32 -> j mod 32 = j' mod 32 -> j = j'.
Proof. intros H1 H2. rewrite (Nat.div_mod j 32), (Nat.div_mod j' 32) by lia. rewrite H1, H2. reflexivity. Qed.

Lemma set_conflict_ok c n x k j : rows_ok c -> bits c n x -> k < n -> j <= k ->
  exists c', set_conflict c k j = Ok c' /\ length c' = length c /\ rows_ok c' /\
    bits c' n (fun k' j' => if Nat.eqb k' k && Nat.eqb j' j then true else x k' j').
Proof.
  intros Hr Hb Hk Hj. destruct (is_set_inv _ _ _ _ (Hb k j Hk Hj)) as (row & z & Hrow & Hz & _).
  assert (Hlr : length row = k / 32 + 1) by (apply (Hr k row Hrow)).
  assert (Hlk : k < length c) by (apply nth_error_Some; congruence).
  unfold set_conflict. rewrite (get_ok _ _ _ Hrow). cbn [obind]. rewrite (get_ok _ _ _ Hz). cbn [obind init].
  destruct (set_ok row (j / 32) (Some (N.setbit z (N.of_nat (j mod 32))))) as (row' & -> & Hlr' & Hnr); [rewrite Hlr; apply bank_le; exact Hj|].
  cbn [obind]. destruct (set_ok c k row' Hlk) as (c' & Hc' & Hlc & Hnc). exists c'. split; [exact Hc'|]. split; [exact Hlc|]. split.
  - intros k' r Hk'. rewrite Hnc in Hk'. destruct (Nat.eqb_spec k' k) as [->|].
    + injection Hk' as <-. congruence.
    + apply (Hr k' r Hk').
  - intros k' j' Hk' Hj'. destruct (is_set_inv _ _ _ _ (Hb k' j' Hk' Hj')) as (r0 & z0 & Hr0 & Hz0 & Hb0). 
    destruct (Nat.eqb_spec k' k) as [->|Hne]; cbn [andb].
    + rewrite Hrow in Hr0. injection Hr0 as <-.
      destruct (Nat.eqb_spec (j' / 32) (j / 32)) as [E|E].
      * rewrite E in Hz0. rewrite Hz in Hz0. injection Hz0 as <-.
        rewrite (is_set_of c' k j' row' (N.setbit z (N.of_nat (j mod 32)))).
        -- rewrite N.setbit_eqb. f_equal. destruct (Nat.eqb_spec j' j) as [->|Hj2].
           ++ rewrite N.eqb_refl. reflexivity.
           ++ destruct (N.eqb_spec (N.of_nat (j mod 32)) (N.of_nat (j' mod 32))) as [E2|_]; [|symmetry; exact Hb0].
              exfalso. apply Hj2. apply same_bit; [exact E|]. apply Nat2N.inj in E2. congruence.
        -- rewrite Hnc, Nat.eqb_refl. reflexivity.
        -- rewrite Hnr, E, Nat.eqb_refl. reflexivity.
      * destruct (Nat.eqb_spec j' j) as [->|_]; [contradiction|].
        rewrite (is_set_of c' k j' row' z0).
        -- f_equal. symmetry. exact Hb0.
        -- rewrite Hnc, Nat.eqb_refl. reflexivity.
        -- rewrite Hnr. destruct (Nat.eqb_spec (j' / 32) (j / 32)); [contradiction|exact Hz0].
    + rewrite (is_set_of c' k' j' r0 z0).
      * f_equal. symmetry. exact Hb0.
      * rewrite Hnc. destruct (Nat.eqb_spec k' k); [contradiction|exact Hr0].
      * exact Hz0.
Qed.

Lemma clear_row_ok row : forall m, m <= length row ->
  exists row', clear_row row m = Ok row' /\ length row' = length row /\ forall b, b < m -> nth_error row' b = Some (Some 0%N).
Proof.
  induction m as [|m IH]; intro Hm; cbn [clear_row].
  - exists row. repeat split. intros; lia.
  - destruct IH as (row' & -> & Hl & Hb); [lia|]. cbn [obind]. destruct (set_ok row' m (Some 0%N)) as (r2 & -> & Hl2 & Hn2); [lia|].
    exists r2. repeat split; [lia|]. intros b Hlt. rewrite Hn2. destruct (Nat.eqb_spec b m); [reflexivity|]. apply Hb. lia.
Qed.
Lemma clear_ok c : rows_ok c -> forall n, n <= length c ->
  exists c', clear_conflicts c n = Ok c' /\ length c' = length c /\ rows_ok c' /\ bits c' n (fun _ _ => false).
Proof.
  intros Hr. induction n as [|n IH]; intro Hn; cbn [clear_conflicts].
  - exists c. repeat split; [exact Hr|]. intros k j Hk. lia.
  - destruct IH as (c1 & -> & Hl & Hr1 & Hb); [lia|]. cbn [obind].
    destruct (nth_error c1 n) as [row|] eqn:Erow; [|apply nth_error_None in Erow; lia].
    rewrite (get_ok _ _ _ Erow). cbn [obind].
    destruct (clear_row_ok row (n / 32 + 1)) as (row' & -> & Hlr & Hbr); [rewrite (Hr1 _ _ Erow); lia|]. cbn [obind].
    destruct (set_ok c1 n row') as (c2 & -> & Hl2 & Hn2); [lia|]. exists c2. split; [reflexivity|]. split; [lia|]. split.
    + intros k r Hk. rewrite Hn2 in Hk. destruct (Nat.eqb_spec k n) as [->|].
      * injection Hk as <-. rewrite Hlr. exact (Hr1 _ _ Erow).
      * exact (Hr1 _ _ Hk).
    + intros k j Hk Hj. destruct (Nat.eqb_spec k n) as [->|Hne].
      * rewrite (is_set_of c2 n j row' 0%N); [rewrite N.bits_0; reflexivity| |].
        -- rewrite Hn2, Nat.eqb_refl. reflexivity.
        -- apply Hbr. apply bank_le. exact Hj.
      * destruct (is_set_inv _ _ _ _ (Hb k j ltac:(lia) Hj)) as (r0 & z0 & Hr0 & Hz0 & Hb0).
        rewrite (is_set_of c2 k j r0 z0); [f_equal; symmetry; exact Hb0| |exact Hz0].
        rewrite Hn2. destruct (Nat.eqb_spec k n); [contradiction|exact Hr0].
Qed.

(* marking hazards *)
Lemma mark_ok can_shift s t skip e j (n : nat) (vals : nat -> option tok) : forall is c x,
  (forall i, In i is -> j < i < n /\ exists r v, nth_error (t_buf t) i = Some (Some r) /\ fst r = Some v /\ vals i = Some v) ->
  (forall i, In i is -> skip i = Ok (e i)) -> rows_ok c -> bits c n x ->
  exists c', mark can_shift s t skip j is c = Ok c' /\ length c' = length c /\ rows_ok c' /\
    bits c' n (fun k' j' => x k' j' || (Nat.eqb j' j && existsb (Nat.eqb k') is && match vals k' with Some v => can_shift s v | None => false end && negb (e k'))).
Proof.
  induction is as [|i is IH]; intros c x Hbuf Hskip Hr Hb; cbn [mark].
  - exists c. repeat split; auto. eapply bits_ext; [|exact Hb]. intros. cbn [existsb]. rewrite andb_false_r. cbn. rewrite orb_false_r. reflexivity.
  - destruct (Hbuf i (or_introl eq_refl)) as (Hji & r & v & Hi & Hv & Hvals).
    rewrite (get_ok _ _ _ Hi). cbn [obind]. unfold can_shift_value at 1. cbn [init obind]. rewrite Hv. cbn [obind].
    assert (Hstep : exists c1, (if can_shift s v then do e0 <- skip i; if e0 then Ok c else set_conflict c i j else Ok c) = Ok c1 /\
      length c1 = length c /\ rows_ok c1 /\ bits c1 n (fun k' j' => x k' j' || (Nat.eqb k' i && Nat.eqb j' j && can_shift s v && negb (e i)))).
    { destruct (can_shift s v).
      - rewrite (Hskip i (or_introl eq_refl)). cbn [obind]. destruct (e i).
        + exists c. repeat split; auto. eapply bits_ext; [|exact Hb]. intros. cbn [negb]. rewrite andb_false_r, orb_false_r. reflexivity.
        + destruct (set_conflict_ok c n x i j Hr Hb) as (c1 & -> & Hl & Hr1 & Hb1); [lia|lia|]. exists c1. repeat split; auto.
          eapply bits_ext; [|exact Hb1]. intros k' j' _ _. cbn [negb]. rewrite !andb_true_r. destruct (Nat.eqb k' i && Nat.eqb j' j); cbn; rewrite ?orb_true_r, ?orb_false_r; reflexivity.
      - exists c. repeat split; auto. eapply bits_ext; [|exact Hb]. intros. rewrite andb_false_r. cbn. rewrite orb_false_r. reflexivity. }
    destruct Hstep as (c1 & -> & Hl1 & Hr1 & Hb1). cbn [obind].
    destruct (IH c1 _ (fun i' H => Hbuf i' (or_intror H)) (fun i' H => Hskip i' (or_intror H)) Hr1 Hb1) as (c2 & -> & Hl2 & Hr2 & Hb2).
    exists c2. repeat split; auto; [lia|]. eapply bits_ext; [|exact Hb2]. intros k' j' _ _. cbn [existsb].
    destruct (Nat.eqb_spec k' i) as [->|Hne]; cbn [orb andb].
    + rewrite Hvals. destruct (Nat.eqb j' j); cbn; rewrite ?orb_false_r; [|reflexivity].
      destruct (x i j'), (can_shift s v), (negb (e i)), (existsb (Nat.eqb i) is); reflexivity.
    + rewrite orb_false_r. reflexivity.
Qed.

(* the shape of the arrays *)
Definition shape (t : tokbuf) : Prop :=
  (exists q, t_max t = 32 * q) /\ length (t_buf t) = t_max t /\ length (t_flags t) = t_max t /\ length (t_conflicts t) = t_max t /\
  rows_ok (t_conflicts t).
Lemma shape0 : shape tokbuf0.
Proof. repeat split; [exists 0; reflexivity|]. intros [|k] row H; discriminate. Qed.
Lemma nth_repeat_some {A} (a : A) n i y : nth_error (repeat a n) i = Some y -> y = a /\ i < n.
Proof.
  intro H. split.
  - apply nth_error_In in H. apply repeat_spec in H. exact H.
  - rewrite <- (repeat_length a n). apply nth_error_Some. congruence.
Qed.
Lemma shape_grow t : shape t -> shape (grow_buffer t).
Proof.
  intros ((q & Hq) & Hb & Hf & Hc & Hr). unfold grow_buffer, shape. cbn [t_max t_buf t_flags t_conflicts].
  rewrite !app_length, !repeat_length. repeat split; [exists (q + 1); lia|lia|lia|lia|].
  intros k row H. destruct (Nat.lt_ge_cases k (length (t_conflicts t))) as [Hlt|Hge].
  - rewrite nth_error_app1 in H by exact Hlt. exact (Hr k row H).
  - rewrite nth_error_app2 in H by exact Hge. apply nth_repeat_some in H. destruct H as (-> & H). rewrite repeat_length.
    rewrite Hc, Hq in *. replace (32 * q + 32) with ((q + 1) * 32) by lia. rewrite Nat.div_mul by lia.
    assert (k / 32 = q); [|lia]. symmetry. apply (Nat.div_unique k 32 q (k - 32 * q)); lia.
Qed.

(* the terminators *)
Lemma codes_words : forall c,
  existsb (N.eqb c) ordinary_terminators = one_of ordinary_words (cmavo_word c) /\
  existsb (N.eqb c) free_terminators = one_of free_words (cmavo_word c) /\
  existsb (N.eqb c) quantifier_terminators = one_of quantifier_words (cmavo_word c).
Proof.
  intro c. 
  assert (Hall : forallb (fun cell => let '(c, w, _) := cell in
     eqb (existsb (N.eqb c) ordinary_terminators) (one_of ordinary_words w) &&
     (eqb (existsb (N.eqb c) free_terminators) (one_of free_words w) &&
      eqb (existsb (N.eqb c) quantifier_terminators) (one_of quantifier_words w))) CmavoData.cmavo_cells = true) by (vm_compute; reflexivity).
  assert (Hmem : forallb (fun c => existsb (fun cell => N.eqb (fst (fst cell)) c) CmavoData.cmavo_cells)
     (ordinary_terminators ++ free_terminators ++ quantifier_terminators) = true) by (vm_compute; reflexivity).
  unfold cmavo_word, cmavo_cell. destruct (find (fun c0 => N.eqb (fst (fst c0)) c) CmavoData.cmavo_cells) as [((c', w), s)|] eqn:Ef.
  - apply find_some in Ef. destruct Ef as (Hin & He). cbn in He. apply N.eqb_eq in He. subst c'.
    rewrite forallb_forall in Hall. specialize (Hall _ Hin). cbn beta iota in Hall.
    apply andb_true_iff in Hall. destruct Hall as (H1 & H). apply andb_true_iff in H. destruct H as (H2 & H3).
    apply eqb_prop in H1, H2, H3. auto.
  - assert (Hno : forall l, incl l (ordinary_terminators ++ free_terminators ++ quantifier_terminators) -> existsb (N.eqb c) l = false).
    { intros l Hl. destruct (existsb (N.eqb c) l) eqn:E; [|reflexivity]. exfalso. apply existsb_exists in E. destruct E as (c' & Hin & He).
      apply N.eqb_eq in He. subst c'. rewrite forallb_forall in Hmem. specialize (Hmem c (Hl c Hin)).
      apply existsb_exists in Hmem. destruct Hmem as (cell & Hc & Hce). pose proof (find_none _ _ Ef _ Hc) as Hn. cbn in Hn. congruence. }
    rewrite !Hno.
    + repeat split; reflexivity.
    + intros a Ha. apply in_or_app. right. apply in_or_app. auto.
    + intros a Ha. apply in_or_app. right. apply in_or_app. auto.
    + intros a Ha. apply in_or_app. auto.
Qed.
Lemma elidable_ok (r : reply) : snd r <> Stale -> token_is_elidable (snd r) = Ok (omissible r, quantifier_end r).
Proof.
  intro Hs. unfold token_is_elidable, omissible, quantifier_end. destruct (snd r) as [|x|]; [reflexivity| |contradiction].
  destruct (dat x); try reflexivity. destruct (codes_words code) as (-> & -> & ->).
  assert (D1 : one_of ordinary_words (cmavo_word code) = true -> one_of quantifier_words (cmavo_word code) = false /\ one_of free_words (cmavo_word code) = false).
  { intro H. unfold one_of in *. apply existsb_exists in H. destruct H as (w & Hin & He). apply String.eqb_eq in He. rewrite He.
    cbn in Hin. repeat (destruct Hin as [<-|Hin]; [split; reflexivity|]). destruct Hin. }
  assert (D2 : one_of free_words (cmavo_word code) = true -> one_of quantifier_words (cmavo_word code) = false).
  { intro H. unfold one_of in *. apply existsb_exists in H. destruct H as (w & Hin & He). apply String.eqb_eq in He. rewrite He.
    cbn in Hin. repeat (destruct Hin as [<-|Hin]; [reflexivity|]). destruct Hin. }
  destruct (one_of ordinary_words (cmavo_word code)).
  - destruct (D1 eq_refl) as (-> & ->). cbn. destruct (ui x); cbn; rewrite ?orb_false_r, ?andb_true_r, ?andb_false_r; reflexivity.
  - destruct (one_of free_words (cmavo_word code)).
    + rewrite (D2 eq_refl). cbn. destruct (ui x); reflexivity.
    + destruct (one_of quantifier_words (cmavo_word code)); cbn; destruct (ui x); reflexivity.
Qed.
Lemma marker_ok (r : reply) : token_is_number_marker (snd r) = number_marker r.
Proof. reflexivity. Qed.
