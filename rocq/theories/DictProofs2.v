From Coq Require Import String Ascii List NArith ZArith Bool Arith Sorted Permutation Lia.
From Verif Require Import Base DictModel DictSpec DictProofs.
Import ListNotations.
Open Scope string_scope.
Open Scope list_scope.

(* ---------- bytes ---------- *)
Lemma land255 v : (N.land v 255 < 256)%N.
Proof. change 255%N with (N.ones 8). rewrite N.land_ones. apply N.mod_lt. discriminate. Qed.
Lemma byte_of v : N_of_ascii (ascii_of_N (N.land v 255)) = N.land v 255.
Proof. apply N_ascii_embedding, land255. Qed.

Lemma bits4 n : (0 <= n < 2 ^ 32)%Z ->
  Z.lor (Z.shiftl (Z.land (Z.shiftr n 24) 255) 24) (Z.lor (Z.shiftl (Z.land (Z.shiftr n 16) 255) 16)
    (Z.lor (Z.shiftl (Z.land (Z.shiftr n 8) 255) 8) (Z.land (Z.shiftr n 0) 255))) = n.
Proof.
  intros R. change 255%Z with (Z.ones 8). apply Z.bits_inj'. intros i I.
  rewrite !Z.lor_spec, !Z.shiftl_spec by exact I.
  assert (B : forall k, (0 <= k)%Z -> Z.testbit (Z.land (Z.shiftr n k) (Z.ones 8)) (i - k) =
     ((k <=? i) && (i <? k + 8) && Z.testbit n i)%Z).
  { intros k K. destruct (Z.leb_spec k i) as [H|H]; cbn [andb].
    - rewrite Z.land_spec, Z.shiftr_spec by lia. replace (i - k + k)%Z with i by lia.
      rewrite Z.testbit_ones_nonneg by lia. rewrite andb_comm. f_equal.
      destruct (Z.ltb_spec (i - k) 8), (Z.ltb_spec i (k + 8)); try reflexivity; lia.
    - rewrite Z.testbit_neg_r by lia. reflexivity. }
  replace (Z.testbit (Z.land (Z.shiftr n 0) (Z.ones 8)) i) with (Z.testbit (Z.land (Z.shiftr n 0) (Z.ones 8)) (i - 0)) by (f_equal; lia).
  rewrite !B by lia.
  destruct (Z.ltb_spec i 32) as [H|H].
  - destruct (Z.testbit n i); rewrite ?andb_false_r; [| reflexivity]. rewrite !andb_true_r.
    repeat match goal with |- context [(?a <=? ?b)%Z] => destruct (Z.leb_spec a b); try lia end;
    repeat match goal with |- context [(?a <? ?b)%Z] => destruct (Z.ltb_spec a b); try lia end; cbn; reflexivity || lia.
  - assert (Z.testbit n i = false) as ->.
    { destruct (Z.eq_dec n 0) as [->|N]; [apply Z.bits_0 |]. apply Z.bits_above_log2; [lia |].
      apply Z.log2_lt_pow2; [lia |]. eapply Z.lt_le_trans; [apply R |]. apply Z.pow_le_mono_r; lia. }
    rewrite !andb_false_r. reflexivity.
Qed.

Lemma get_put_long n f : (n < 2 ^ 31)%N -> get_long (put_long n ++ f) = (Z.of_N n, f).
Proof.
  intro R. unfold put_long, get_long. cbn [map app getc]. rewrite !byte_of.
  assert (H : forall k, Z.of_N (N.land (N.shiftr n k) 255) = Z.land (Z.shiftr (Z.of_N n) (Z.of_N k)) 255).
  { intro k. change 255%N with (N.ones 8). change 255%Z with (Z.ones 8). rewrite N.land_ones, Z.land_ones by lia.
    rewrite N2Z.inj_mod, N.shiftr_div_pow2, Z.shiftr_div_pow2, N2Z.inj_div, N2Z.inj_pow by lia. reflexivity. }
  rewrite !H. change (Z.of_N 24) with 24%Z. change (Z.of_N 16) with 16%Z. change (Z.of_N 8) with 8%Z. change (Z.of_N 0) with 0%Z.
  rewrite bits4 by lia. unfold to_int. f_equal. rewrite Z.mod_small; lia.
Qed.

Lemma put_len s : (strlen s < 256)%N -> N_of_ascii (put_char (strlen s)) = strlen s.
Proof.
  intro H. unfold put_char. rewrite byte_of. change 255%N with (N.ones 8). rewrite N.land_ones. apply N.mod_small. exact H.
Qed.

Definition lens (e : string * string) : Z * Z := (Z.of_N (strlen (fst e)), Z.of_N (strlen (snd e))).
Lemma read_lens_write d f : Forall (fun e => storable (fst e) /\ storable (snd e)) d ->
  read_lens (List.length d) (flat_map head_bytes d ++ f) = (map lens d, f).
Proof.
  induction 1 as [|(k & v) d ((_ & K) & (_ & V)) F IH]; [reflexivity |].
  cbn [List.length read_lens flat_map head_bytes app getc fst snd] in *. rewrite IH, !put_len by assumption. reflexivity.
Qed.

Lemma cstr_chars s f : no_nul s -> cstr (chars s ++ nul :: f) = Ok s.
Proof.
  unfold no_nul, chars. induction s as [|a s IH]; cbn [list_ascii_of_string app cstr]; intro N; [reflexivity |].
  destruct (N.eqb_spec (N_of_ascii a) 0) as [E|E].
  - exfalso. apply N. left. apply N_of_ascii_inj. rewrite E. reflexivity.
  - rewrite IH; [reflexivity |]. intro I. apply N. right. exact I.
Qed.
Lemma len_chars s : List.length (chars s) = String.length s.
Proof. unfold chars. induction s; cbn; auto. Qed.

Lemma read_string_write s f : no_nul s -> read_string (Z.of_N (strlen s)) (chars s ++ nul :: f) = Ok (s, f).
Proof.
  intro N. unfold read_string, strlen. destruct (Z.ltb_spec (Z.of_N (N.of_nat (String.length s))) 0); [lia |].
  replace (Z.to_nat (Z.of_N (N.of_nat (String.length s)))) with (List.length (chars s)) by (rewrite len_chars; lia).
  rewrite app_length. cbn [List.length]. rewrite (proj2 (Nat.leb_le _ _)) by lia.
  rewrite firstn_app, firstn_all, Nat.sub_diag. cbn [firstn]. rewrite app_nil_r.
  rewrite (cstr_chars s []) by exact N. cbn [obind]. f_equal. f_equal.
  rewrite skipn_app. rewrite skipn_all2 by lia. replace (S (List.length (chars s)) - List.length (chars s)) with 1 by lia. reflexivity.
Qed.
Lemma body_shape e f : body_bytes e ++ f = chars (fst e) ++ nul :: chars (snd e) ++ nul :: f.
Proof. unfold body_bytes. repeat (rewrite <- app_assoc; cbn [app]). reflexivity. Qed.

Lemma read_strings_write d f : Forall (fun e => storable (fst e) /\ storable (snd e)) d ->
  read_strings (map lens d) (flat_map body_bytes d ++ f) = Ok (map (fun e => Define (fst e) (snd e)) d).
Proof.
  induction 1 as [|(k & v) d ((K & _) & (V & _)) F IH]; [reflexivity |].
  cbn [map lens flat_map fst snd read_strings] in *. rewrite <- app_assoc, body_shape. cbn [fst snd].
  rewrite read_string_write by exact K. cbn [obind]. rewrite read_string_write by exact V. cbn [obind].
  rewrite IH. reflexivity.
Qed.

Lemma reread d : storable_dict d -> read_database (write_bytes d) = Ok (map (fun e => Define (fst e) (snd e)) d).
Proof.
  intros (F & L). unfold read_database, write_bytes. rewrite get_put_long by lia.
  replace (Z.to_nat (Z.of_N (N.of_nat (List.length d)))) with (List.length d) by lia.
  rewrite read_lens_write by exact F. rewrite <- (app_nil_r (flat_map body_bytes d)).
  apply read_strings_write, F.
Qed.
Lemma write_ok d : Forall (fun e => storable (fst e) /\ storable (snd e)) d -> write_database d = Ok (write_bytes d).
Proof.
  intro F. unfold write_database.
  replace (existsb _ d) with false; [reflexivity |]. symmetry.
  induction F as [|e d ((_ & K) & (_ & V)) F IH]; cbn; [reflexivity |]. rewrite IH.
  rewrite (proj2 (N.leb_gt _ _)) by exact K. rewrite (proj2 (N.leb_gt _ _)) by exact V. reflexivity.
Qed.
Lemma write_ub d : ~ Forall (fun e => (strlen (fst e) < 256)%N /\ (strlen (snd e) < 256)%N) d -> write_database d = UB UB_bounds.
Proof.
  intro F. unfold write_database. destruct (existsb _ d) eqn:E; [reflexivity |]. exfalso. apply F.
  apply Forall_forall. intros e I. destruct (N.ltb_spec (strlen (fst e)) 256) as [A|A], (N.ltb_spec (strlen (snd e)) 256) as [B|B]; auto; exfalso;
    assert (T : existsb (fun e : string * string => ((256 <=? strlen (fst e)) || (256 <=? strlen (snd e)))%N) d = true)
      by (apply existsb_exists; exists e; split; [exact I |];
          rewrite ?(proj2 (N.leb_le _ _) A), ?(proj2 (N.leb_le _ _) B), ?orb_true_r; reflexivity); congruence.
Qed.

(* ---------- loading ---------- *)
Definition stands (D : dictionary) (e : string * string) (o : Z * Z) : Prop :=
  at_offset D (fst o) = Ok (fst e) /\ at_offset D (snd o) = Ok (snd e).

Lemma at_mid pre s f l : no_nul s ->
  at_offset (Dict (pre ++ chars s ++ nul :: f) l) (Z.of_nat (List.length pre)) = Ok s.
Proof.
  intro N. unfold at_offset. destruct (Z.ltb_spec (Z.of_nat (List.length pre)) 0); [lia |].
  rewrite Nat2Z.id. cbn [base]. rewrite skipn_app, skipn_all, Nat.sub_diag. cbn [skipn app]. apply cstr_chars, N.
Qed.

Lemma load_stands d l : Forall (fun e => storable (fst e) /\ storable (snd e)) d -> forall pre,
  Forall2 (stands (Dict (pre ++ flat_map body_bytes d) l)) d (offsets (map lens d) (Z.of_nat (List.length pre))).
Proof.
  induction 1 as [|(k & v) d ((K & _) & (V & _)) F IH]; intro pre; [constructor |].
  cbn [map lens fst snd flat_map offsets] in *. constructor.
  - unfold stands. cbn [fst snd]. rewrite body_shape. cbn [fst snd]. split; [apply at_mid, K |].
    replace (pre ++ chars k ++ nul :: chars v ++ nul :: flat_map body_bytes d)
      with ((pre ++ chars k ++ [nul]) ++ chars v ++ nul :: flat_map body_bytes d) by (rewrite <- !app_assoc; reflexivity).
    replace (Z.of_nat (List.length pre) + Z.of_N (strlen k) + 1)%Z with (Z.of_nat (List.length (pre ++ chars k ++ [nul]))).
    + apply at_mid, V.
    + rewrite !app_length, len_chars. cbn [List.length]. unfold strlen. lia.
  - rewrite app_assoc. specialize (IH (pre ++ body_bytes (k, v))).
    replace (Z.of_nat (List.length pre) + Z.of_N (strlen k) + 1 + Z.of_N (strlen v) + 1)%Z
      with (Z.of_nat (List.length (pre ++ body_bytes (k, v)))); [exact IH |].
    unfold body_bytes. cbn [fst snd]. repeat (rewrite app_length; cbn [List.length]). rewrite !len_chars. unfold strlen. lia.
Qed.
Lemma loaded d : storable_dict d -> Forall2 (stands (load (write_bytes d))) d (entries (load (write_bytes d))).
Proof.
  intros (F & L). unfold load, write_bytes. rewrite get_put_long by lia.
  replace (Z.to_nat (Z.of_N (N.of_nat (List.length d)))) with (List.length d) by lia.
  rewrite read_lens_write by exact F. cbn [entries]. apply (load_stands d _ F []).
Qed.

(* ---------- bisection ---------- *)
Lemma Forall2_nth_left {A B} (R : A -> B -> Prop) l m : Forall2 R l m -> forall i a, nth_error l i = Some a ->
  exists b, nth_error m i = Some b /\ R a b.
Proof.
  induction 1 as [|x y l m H F IH]; intros [|i] a E; cbn in *; try discriminate.
  - injection E as <-. eauto.
  - auto.
Qed.
Lemma Forall2_len {A B} (R : A -> B -> Prop) l m : Forall2 R l m -> List.length l = List.length m.
Proof. induction 1; cbn; auto. Qed.

Lemma sorted_nth (d : list (string * string)) : StronglySorted (fun a b => before (fst a) (fst b)) d ->
  forall i j a b, i < j -> nth_error d i = Some a -> nth_error d j = Some b -> before (fst a) (fst b).
Proof.
  induction 1 as [|x d S IH F]; intros i j a b L A B; [destruct i; discriminate |].
  destruct j as [|j]; [lia |]. cbn in B. destruct i as [|i]; cbn in A.
  - injection A as <-. rewrite Forall_forall in F. apply F. eapply nth_error_In. exact B.
  - eapply IH; [| eassumption | eassumption]. lia.
Qed.

Lemma bisect_ok D d k : Forall2 (stands D) d (entries D) -> StronglySorted (fun a b => before (fst a) (fst b)) d ->
  (N.of_nat (List.length d) <= 2 ^ 30)%N ->
  forall fuel l h, l <= h <= List.length d -> h - l < fuel ->
  (forall i a, nth_error d i = Some a -> fst a = k -> l <= i < h) ->
  bisect fuel D k (Z.of_nat l) (Z.of_nat h) = Ok (assoc d k).
Proof.
  intros St S Len. induction fuel as [|fuel IH]; intros l h R F I; [lia |]. cbn [bisect].
  assert (No : (forall i a, nth_error d i = Some a -> fst a <> k) -> assoc d k = None).
  { intro H. apply assoc_none. intro J. apply in_map_iff in J. destruct J as (a & E & J). apply In_nth_error in J.
    destruct J as (i & J). exact (H i a J E). }
  destruct (Z.ltb_spec (Z.of_nat l) (Z.of_nat h)) as [Lh|Lh].
  2: { rewrite No; [reflexivity |]. intros i a E Ek. specialize (I i a E Ek). lia. }
  assert (B : (Z.of_nat h + Z.of_nat l < 2147483648)%Z) by lia.
  rewrite (proj2 (Z.leb_gt _ _) B).
  set (m := (h + l) / 2).
  assert (M : Z.shiftr (Z.of_nat h + Z.of_nat l) 1 = Z.of_nat m).
  { rewrite Z.shiftr_div_pow2 by lia. unfold m. rewrite Nat2Z.inj_div, Nat2Z.inj_add. reflexivity. }
  assert (Ml : l <= m < h).
  { unfold m. split; [apply Nat.div_le_lower_bound; lia | apply Nat.div_lt_upper_bound; lia]. }
  rewrite M, Nat2Z.id.
  destruct (nth_error d m) as [a|] eqn:A; [| apply nth_error_None in A; lia].
  destruct (Forall2_nth_left _ _ _ St _ _ A) as ((ko & vo) & Eo & (Ek & Ev)). rewrite Eo. cbn [fst snd] in Ek, Ev.
  rewrite Ek. cbn [obind].
  destruct (strcmp k (fst a)) eqn:C.
  - apply strcmp_eq in C. rewrite Ev. cbn [obind]. f_equal. symmetry. apply assoc_in; [exact S |].
    apply nth_error_In in A. rewrite C. destruct a; exact A.
  - apply strcmp_before in C.
    assert (Up : forall i b, nth_error d i = Some b -> fst b = k -> i < m).
    { intros i b E Eb. destruct (Nat.lt_ge_cases i m) as [H|H]; [exact H | exfalso].
      destruct (Nat.eq_dec i m) as [->|N].
      - rewrite A in E. injection E as <-. rewrite Eb in C. exact (before_irrefl _ C).
      - assert (J : before (fst a) (fst b)) by (eapply (sorted_nth d S m i); [lia | exact A | exact E]).
        rewrite Eb in J. exact (before_irrefl _ (before_trans _ _ C _ J)). }
    destruct (Z.eqb_spec (Z.of_nat m) (Z.of_nat l)) as [E|E].
    + rewrite No; [reflexivity |]. intros i b Eb Ek'. specialize (I i b Eb Ek'). specialize (Up i b Eb Ek'). lia.
    + apply IH; [lia | lia |]. intros i b Eb Ek'. specialize (I i b Eb Ek'). specialize (Up i b Eb Ek'). lia.
  - assert (C' : before (fst a) k) by (apply strcmp_before; rewrite strcmp_anti, C; reflexivity).
    assert (Lo : forall i b, nth_error d i = Some b -> fst b = k -> m < i).
    { intros i b E Eb. destruct (Nat.lt_ge_cases m i) as [H|H]; [exact H | exfalso].
      destruct (Nat.eq_dec i m) as [->|N].
      - rewrite A in E. injection E as <-. rewrite Eb in C'. exact (before_irrefl _ C').
      - assert (J : before (fst b) (fst a)) by (eapply (sorted_nth d S i m); [lia | exact E | exact A]).
        rewrite Eb in J. exact (before_irrefl _ (before_trans _ _ C' _ J)). }
    destruct (Z.eqb_spec (Z.of_nat m) (Z.of_nat l)) as [E|E].
    + rewrite No; [reflexivity |]. intros i b Eb Ek'. specialize (I i b Eb Ek'). specialize (Lo i b Eb Ek').
      assert (m = l) by lia. unfold m in *. pose proof (Nat.div_mod (h + l) 2). pose proof (Nat.mod_upper_bound (h + l) 2). lia.
    + apply IH; [lia | lia |]. intros i b Eb Ek'. specialize (I i b Eb Ek'). specialize (Lo i b Eb Ek'). lia.
Qed.

Lemma lookup_ok d k : storable_dict d -> StronglySorted (fun a b => before (fst a) (fst b)) d ->
  dict_lookup (load (write_bytes d)) k = Ok (assoc d k).
Proof.
  intros St S. pose proof (loaded d St) as F. unfold dict_lookup. rewrite <- (Forall2_len _ _ _ F).
  apply (bisect_ok _ d k F S (proj2 St) (Datatypes.S (List.length d)) 0 (List.length d)); [lia | lia |].
  intros i a E _. split; [lia |]. apply nth_error_Some. congruence.
Qed.
