(* The text of the compressed tables holds the tables of C29. *)
From Coq Require Import Ascii String List Bool Arith NArith ZArith Lia.
From Verif Require Import Base Arr DfaModel DfaSpec DfaTabProofs.
From Verif Require TransModel TabtextModel.
From Verif Require Import TabtextRows TabtextSpec TabtextProofs.
Import TabtextModel.
Import ListNotations.
Open Scope string_scope.
Open Scope list_scope.

Lemma upto_from_seq n : forall i, upto_from (N.of_nat i) n = map N.of_nat (seq i n).
Proof.
  induction n as [|n IH]; intro i; [reflexivity|]. cbn [upto_from seq map]. f_equal.
  rewrite <- Nnat.Nat2N.inj_succ. apply IH.
Qed.
Lemma combine_seq (m : list (option N)) : forall i,
  combine (map N.of_nat (seq i (List.length m))) m = map (fun j => (N.of_nat j, nth (j - i) m None)) (seq i (List.length m)).
Proof.
  induction m as [|d m IH]; intro i; [reflexivity|]. cbn [List.length seq map combine]. f_equal.
  - rewrite Nat.sub_diag. reflexivity.
  - rewrite IH. apply map_ext_in. intros j J. apply in_seq in J.
    replace (j - i)%nat with (S (j - S i)) by lia. reflexivity.
Qed.
Lemma num_eqb a b : Z.eqb (num a) (num b) = opt_eqb a b.
Proof.
  destruct a as [a|], b as [b|]; cbn [num opt_eqb].
  - destruct (N.eqb_spec a b) as [->|H]; [apply Z.eqb_refl|]. apply Z.eqb_neq. lia.
  - apply Z.eqb_neq. lia.
  - apply Z.eqb_neq. lia.
  - reflexivity.
Qed.
Lemma at_num m j : at_token (map num m) j = num (nth j m None).
Proof. unfold at_token. change (-1)%Z with (num None). apply map_nth. Qed.
Lemma num_neg d : (0 <=? num d)%Z = match d with Some _ => true | None => false end.
Proof. destruct d as [d|]; [|reflexivity]. apply Z.leb_le. cbn [num]. lia. Qed.
Lemma nth_default_error (m : list (option N)) j : nth j m None = match nth_error m j with Some x => x | None => None end.
Proof. revert j. induction m as [|d m IH]; intros [|j]; try reflexivity. apply IH. Qed.

Lemma include_same crows r j :
  check_include_char (map row_of crows) (row_of r) j =
  include_char (match c_def r with Some k => option_map c_map (aget (aof crows) k) | None => None end) (N.of_nat j) (nth j (c_map r) None).
Proof.
  unfold check_include_char. cbn [row_of r_def r_map]. rewrite num_neg, at_num.
  destruct (c_def r) as [k|]; [|apply num_neg].
  cbn [num]. rewrite aget_of. replace (Z.to_nat (Z.of_N k)) with (N.to_nat k) by lia.
  assert (E : nth (N.to_nat k) (map row_of crows) (TRow [] (-1)) = match nth_error crows (N.to_nat k) with Some q => row_of q | None => TRow [] (-1) end).
  { clear. generalize (N.to_nat k). induction crows as [|q l IH]; intros [|i]; try reflexivity. apply IH. }
  rewrite E. destruct (nth_error crows (N.to_nat k)) as [q|]; cbn [option_map include_char row_of r_map].
  - rewrite at_num, num_eqb, nth_default_error, Nnat.Nat2N.id. rewrite (nth_default_error (c_map q)). reflexivity.
  - unfold at_token. replace (nth j [] (-1)%Z) with (num None) by (destruct j; reflexivity).
    rewrite num_eqb. destruct (nth j (c_map r) None); reflexivity.
Qed.
Lemma filter_map_comm A B (g : B -> bool) (h : A -> B) l : filter g (map h l) = map h (filter (fun x => g (h x)) l).
Proof. induction l as [|x l IH]; [reflexivity|]. cbn [map filter]. destruct (g (h x)); cbn [map]; rewrite IH; reflexivity. Qed.
Lemma kept_same crows r nt : List.length (c_map r) = nt ->
  kept_entries (aof crows) r = map (fun j => (N.of_nat j, nth j (c_map r) None)) (kept_js (map row_of crows) (row_of r) nt).
Proof.
  intros <-. unfold kept_entries, kept_js. unfold upto. rewrite Nnat.Nat2N.id.
  change 0%N with (N.of_nat 0). rewrite upto_from_seq, combine_seq.
  rewrite (map_ext (fun j => (N.of_nat j, nth (j - 0) (c_map r) None)) (fun j => (N.of_nat j, nth j (c_map r) None)))
    by (intro j; rewrite Nat.sub_0_r; reflexivity).
  rewrite filter_map_comm. f_equal. apply filter_ext. intro j. symmetry. apply include_same.
Qed.

Lemma u8_same n : kept_u8 (Z.of_N n) = to_u8 n.
Proof. unfold kept_u8, to_u8. change 256%Z with (Z.of_N 256). rewrite <- N2Z.inj_mod, N2Z.id. reflexivity. Qed.
Lemma u16_same n : kept_u16 (Z.of_N n) = to_u16 n.
Proof. unfold kept_u16, to_u16. change 65536%Z with (Z.of_N 65536). rewrite <- N2Z.inj_mod, N2Z.id. reflexivity. Qed.
Lemma s16_same d : kept_s16 (num d) = to_s16 d.
Proof.
  destruct d as [n|]; [|reflexivity]. unfold kept_s16, to_s16, num. change 65536%Z with (Z.of_N 65536).
  rewrite <- N2Z.inj_mod, N2Z.id. cbv zeta. set (k := (n mod 65536)%N). clearbody k.
  destruct (Z.ltb_spec (Z.of_N k) 32768), (N.ltb_spec k 32768); (reflexivity || exfalso; lia).
Qed.
Lemma bases_same ls : forall n, map kept_u16 (starts_at n (map (@List.length (N * option N)) ls)) = map to_u16 (bases (N.of_nat n) ls).
Proof.
  induction ls as [|l ls IH]; intro n; cbn [map starts_at bases]; rewrite <- nat_N_Z, u16_same; [reflexivity|].
  f_equal. rewrite <- Nnat.Nat2N.inj_add. apply IH.
Qed.

Section TABLES.
  Variable src : source.
  Variable dfas : list dnode.
  Hypothesis rows_nt : Forall (fun d => List.length (d_map d) = N.to_nat (s_ntok src)) dfas.
  Let crows := compress_transition_table (s_ntok src) dfas.
  Let rows := map row_of crows.
  Let nt := N.to_nat (s_ntok src).

  Lemma len_of r : In r crows -> List.length (c_map r) = nt.
  Proof. apply crow_len. exact rows_nt. Qed.
  Lemma over A (f : trow -> A) (g : crow -> A) : (forall r, List.length (c_map r) = nt -> f (row_of r) = g r) -> map f rows = map g crows.
  Proof. intro H. unfold rows. rewrite map_map. apply map_ext_in. intros r R. apply H. apply len_of, R. Qed.

  Lemma text_tables : exists token next base def,
    (forall p, exists d1 d2 d3 d4,
      print_compressed_tables p nt rows = (d1 ++ d2 ++ d3 ++ d4 ++ next_state_compressed p)%string /\
      declares d1 "unsigned char" (table_name p "token") token /\ declares d2 "short" (table_name p "nextstate") next /\
      declares d3 "unsigned short" (table_name p "base") base /\ declares d4 "short" (table_name p "defstate") def) /\
    t_token (print_tables src dfas) = aof (map kept_u8 token) /\ t_next (print_tables src dfas) = aof (map kept_s16 next) /\
    t_base (print_tables src dfas) = aof (map kept_u16 base) /\ t_def (print_tables src dfas) = aof (map kept_s16 def).
  Proof.
    eexists _, _, _, _. split; [|split; [|split; [|split]]].
    - intro p. unfold print_compressed_tables. rewrite next_rows_items, token_rows_items.
      eexists _, _, _, _. split; [|split; [|split; [|split]]]; [|apply declared..].
      rewrite !app_assoc_s. reflexivity.
    - unfold print_tables. cbn [t_token]. f_equal. fold crows. rewrite !concat_map, !map_map. f_equal.
      symmetry. apply over. intros r R. fold rows. rewrite (kept_same crows r nt R), !map_map. apply map_ext. intro j.
      cbn [fst]. rewrite <- nat_N_Z. apply u8_same.
    - unfold print_tables. cbn [t_next]. f_equal. fold crows. rewrite !concat_map, !map_map. f_equal.
      symmetry. apply over. intros r R. fold rows. rewrite (kept_same crows r nt R), !map_map. apply map_ext. intro j.
      cbn [snd row_of r_map]. rewrite at_num. apply s16_same.
    - unfold print_tables. cbn [t_base]. f_equal. fold crows. change 0%N with (N.of_nat 0). rewrite <- bases_same. f_equal. f_equal.
      rewrite map_map. symmetry. apply over. intros r R. rewrite (kept_same crows r nt R), map_length. reflexivity.
    - unfold print_tables. cbn [t_def]. f_equal. fold crows. symmetry. unfold rows. rewrite !map_map. apply map_ext. intro r. apply s16_same.
  Qed.
End TABLES.

Lemma at_seq m nt : List.length m = nt -> map (at_token m) (seq 0 nt) = m.
Proof.
  intros <-. induction m as [|z m IH]; [reflexivity|]. cbn [List.length seq map]. f_equal.
  rewrite <- seq_shift, map_map. exact IH.
Qed.
Lemma flat_index (ls : list (list Z)) nt : Forall (fun l => List.length l = nt) ls -> forall i j l, nth_error ls i = Some l -> (j < nt)%nat ->
  nth_error (concat ls) (nt * i + j) = nth_error l j.
Proof.
  induction 1 as [|m ls L F IH]; intros i j l E J; [destruct i; discriminate|]. cbn [concat].
  destruct i as [|i]; cbn [nth_error] in E.
  - injection E as <-. rewrite Nat.mul_0_r. rewrite nth_error_app1 by (cbn; lia). reflexivity.
  - rewrite nth_error_app2 by lia. replace (nt * S i + j - List.length m)%nat with (nt * i + j)%nat by lia. apply IH; assumption.
Qed.
Lemma text_full rows nt : Forall (fun r => List.length (r_map r) = nt) rows ->
  exists all, (forall p, exists d, print_uncompressed_tables p nt rows = (d ++ next_state_uncompressed p nt)%string /\ declares d "short" (table_name p "trans") all) /\
  forall i j r, nth_error rows i = Some r -> (j < nt)%nat -> nth_error all (nt * i + j) = nth_error (r_map r) j.
Proof.
  intro F. exists (concat (map r_map rows)). split.
  - intro p. unfold print_uncompressed_tables. rewrite full_rows_items.
    rewrite (map_ext_in _ r_map) by (intros r R; rewrite Forall_forall in F; apply at_seq, F, R).
    eexists. split; [|apply declared]. rewrite !app_assoc_s. reflexivity.
  - intros i j r E J. apply (flat_index (map r_map rows) nt); [|apply map_nth_error, E|exact J].
    apply Forall_forall. intros l L. apply in_map_iff in L. destruct L as (q & <- & Q). rewrite Forall_forall in F. apply F, Q.
Qed.

Lemma loop_same t tb exit attr f : forall s,
  next_state_loop f (Tables (t_token tb) (t_next tb) (t_base tb) (t_def tb) exit attr) s t = next_state_loop f tb s t.
Proof.
  induction f as [|f IH]; intro s; [reflexivity|]. cbn [next_state_loop t_base t_token t_next t_def].
  destruct (aget (t_base tb) s); [|reflexivity]. destruct (aget (t_base tb) (N.succ s)); [|reflexivity].
  destruct (bisect (t_token tb) t n n0) as [[m|]| | | |]; try reflexivity. cbn [obind].
  destruct (aget (t_def tb) s) as [[d|]|]; try reflexivity. apply IH.
Qed.
Lemma text_lookup src dfas :
  Forall (fun d => List.length (d_map d) = N.to_nat (s_ntok src)) dfas -> closed_table (map d_map dfas) ->
  (s_ntok src <= 256)%N -> (N.of_nat (List.length dfas) <= 32768)%N -> (N.of_nat (List.length dfas) * s_ntok src <= 65535)%N ->
  exists token next base def,
    (forall p, exists d1 d2 d3 d4,
      print_compressed_tables p (N.to_nat (s_ntok src)) (map row_of (compress_transition_table (s_ntok src) dfas)) =
        (d1 ++ d2 ++ d3 ++ d4 ++ next_state_compressed p)%string /\
      declares d1 "unsigned char" (table_name p "token") token /\ declares d2 "short" (table_name p "nextstate") next /\
      declares d3 "unsigned short" (table_name p "base") base /\ declares d4 "short" (table_name p "defstate") def) /\
    forall exit attr, List.length exit = List.length dfas -> forall s t, (s < N.of_nat (List.length dfas))%N ->
      next_state (Tables (aof (map kept_u8 token)) (aof (map kept_s16 next)) (aof (map kept_u16 base)) (aof (map kept_s16 def)) exit attr) (Some s) t =
      Ok (entry (map d_map dfas) s t).
Proof.
  intros F C A B D. destruct (text_tables src dfas F) as (token & next & base & def & T & E1 & E2 & E3 & E4).
  exists token, next, base, def. split; [exact T|]. intros exit attr L s t S.
  rewrite <- E1, <- E2, <- E3, <- E4. rewrite <- (next_state_entry src dfas F C A B D s t S).
  unfold next_state. cbn [t_exit]. rewrite L.
  replace (List.length (t_exit (print_tables src dfas))) with (List.length dfas) by (unfold print_tables; cbn [t_exit]; now rewrite map_length).
  apply loop_same.
Qed.
