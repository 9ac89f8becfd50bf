(* Reading back the numbers of the tables of dfasyn. *)
From Coq Require Import Ascii String List Bool Arith NArith ZArith Lia.
From Verif Require Import TransModel TabtextModel TabtextSpec.
Import ListNotations.
Open Scope string_scope.
Open Scope list_scope.

Lemma app_assoc_s (a b c : string) : ((a ++ b) ++ c = a ++ (b ++ c))%string.
Proof. induction a as [|x a IH]; [reflexivity|]. exact (f_equal (String x) IH). Qed.
Lemma app_nil_s (a : string) : (a ++ "" = a)%string.
Proof. induction a as [|x a IH]; [reflexivity|]. exact (f_equal (String x) IH). Qed.

Definition dig (n : N) : ascii := ascii_of_N (48 + N.modulo n 10).
Lemma digit_dig n : digit (dig n) = Some (Z.of_N (n mod 10)).
Proof.
  unfold digit, dig. assert (n mod 10 < 10)%N by (apply N.mod_lt; lia).
  set (k := (n mod 10)%N) in *. clearbody k. rewrite N_ascii_embedding by lia.
  destruct (N.leb_spec 48 (48 + k)); [|exfalso; lia]. destruct (N.leb_spec (48 + k) 57); [|exfalso; lia].
  cbn [andb]. f_equal. lia.
Qed.

Lemma digits_read f : forall n acc, (0 < n)%N -> (n < 2 ^ N.of_nat f)%N ->
  exists c D d, digits f n acc = String c (D ++ acc) /\ digit c = Some d /\
    forall neg r, read (inside neg d) (D ++ r) = read (inside neg (Z.of_N n)) r.
Proof.
  induction f as [|f IH]; intros n acc P L; [cbn in L; lia|].
  cbn [digits]. change (ascii_of_N (48 + n mod 10)) with (dig n).
  pose proof (N.div_mod n 10 ltac:(lia)) as E. pose proof (N.mod_lt n 10 ltac:(lia)) as M.
  destruct (N.eqb_spec (n / 10) 0) as [Z|Z].
  - exists (dig n), "", (Z.of_N n). split; [reflexivity|]. split; [|reflexivity].
    rewrite digit_dig. f_equal. lia.
  - destruct (IH (n / 10)%N (String (dig n) acc)) as (c & D & d & E1 & E2 & E3).
    + lia.
    + apply N.div_lt_upper_bound; [lia|]. rewrite Nnat.Nat2N.inj_succ, N.pow_succ_r' in L. lia.
    + exists c, (D ++ String (dig n) "")%string, d. split; [|split; [exact E2|]].
      * rewrite E1. f_equal. rewrite app_assoc_s. reflexivity.
      * intros neg r. rewrite app_assoc_s. cbn [append]. rewrite E3. cbn [read]. rewrite digit_dig.
        destruct (Z.eqb_spec (Z.of_N (n / 10)) 0); [lia|]. f_equal. f_equal. lia.
Qed.

Lemma pos_size p : (N.pos p < 2 ^ N.of_nat (Pos.size_nat p))%N.
Proof.
  induction p as [p IH|p IH|]; [| |reflexivity]; cbn [Pos.size_nat]; rewrite Nnat.Nat2N.inj_succ, N.pow_succ_r';
    set (k := (2 ^ N.of_nat (Pos.size_nat p))%N) in *; clearbody k; lia.
Qed.
Lemma size_bound p : (N.pos p < 2 ^ N.of_nat (S (N.size_nat (N.pos p))))%N.
Proof.
  rewrite Nnat.Nat2N.inj_succ, N.pow_succ_r'. pose proof (pos_size p) as G.
  change (N.size_nat (N.pos p)) with (Pos.size_nat p). set (k := (2 ^ N.of_nat (Pos.size_nat p))%N) in *. clearbody k. lia.
Qed.

Lemma zdec_read z : exists neg v, value neg v = z /\ forall r, read before (zdec z ++ r) = read (inside neg v) r.
Proof.
  destruct z as [|p|p].
  - exists false, 0%Z. split; reflexivity.
  - destruct (digits_read _ (N.pos p) "" eq_refl (size_bound p)) as (c & D & d & E1 & E2 & E3).
    exists false, (Z.pos p). split; [reflexivity|]. intro r. cbn [zdec]. rewrite E1, app_nil_s. cbn [append read].
    assert (B : blank c = false /\ Ascii.eqb c "-" = false).
    { split; [apply orb_false_iff; split|]; apply Ascii.eqb_neq; intros ->; discriminate. }
    destruct B as [-> ->]. rewrite E2. apply E3.
  - destruct (digits_read _ (N.pos p) "" eq_refl (size_bound p)) as (c & D & d & E1 & E2 & E3).
    exists true, (Z.pos p). split; [reflexivity|]. intro r. cbn [zdec]. rewrite E1, app_nil_s.
    cbn [append read]. change (blank "-") with false. change (Ascii.eqb "-" "-") with true. cbv iota. rewrite E2. apply E3.
Qed.
Lemma spaces_read n r : read before (spaces n ++ r) = read before r.
Proof. induction n as [|n IH]; [reflexivity|]. exact IH. Qed.
Lemma pad_read w z : exists neg v, value neg v = z /\ forall r, read before (pad w z ++ r) = read (inside neg v) r.
Proof.
  destruct (zdec_read z) as (neg & v & V & R). exists neg, v. split; [exact V|]. intro r.
  unfold pad. rewrite app_assoc_s, spaces_read. apply R.
Qed.
Lemma gap_read n r : read before ((if (n mod 8 =? 0)%nat then nl ++ "  " else " ") ++ r) = read before r.
Proof. destruct (n mod 8 =? 0)%nat; reflexivity. Qed.

Lemma items_tail w l : forall n neg v, read (inside neg v) (items w (S n) l ++ nl) = Some (value neg v :: l).
Proof.
  induction l as [|z l IH]; intros n neg v; [reflexivity|].
  cbn [items]. unfold item. change (0 <? S n)%nat with true. cbv iota. rewrite !app_assoc_s.
  cbn [append read]. change (digit ",") with (@None Z). change (Ascii.eqb "," ",") with true. cbv iota.
  rewrite gap_read. destruct (pad_read w z) as (neg' & v' & V & R). rewrite R, IH, V. reflexivity.
Qed.
Lemma items_read w l : initialiser (items w 0 l ++ nl) l.
Proof.
  destruct l as [|z l]; [reflexivity|]. unfold initialiser. cbn [items]. unfold item.
  change (0 <? 0)%nat with false. cbv iota. rewrite !app_assoc_s. cbn [append].
  rewrite gap_read. destruct (pad_read w z) as (neg' & v' & V & R). rewrite R, items_tail, V. reflexivity.
Qed.
Lemma items_app w a : forall n b, items w n (a ++ b) = (items w n a ++ items w (n + List.length a) b)%string.
Proof.
  induction a as [|z a IH]; intros n b.
  - cbn [app items List.length append]. replace (n + 0)%nat with n by lia. reflexivity.
  - cbn [app items List.length]. rewrite IH, app_assoc_s.
    replace (n + S (List.length a))%nat with (S n + List.length a)%nat by lia. reflexivity.
Qed.

Lemma full_row_items r js : forall n,
  full_row n r js = (items 4 n (map (at_token (r_map r)) js), (n + List.length js)%nat).
Proof.
  induction js as [|j js IH]; intro n; cbn [full_row map items List.length]; [f_equal; lia|].
  rewrite IH. f_equal. lia.
Qed.
Lemma full_rows_items nt rows : forall n,
  full_rows n nt rows = items 4 n (concat (map (fun r => map (at_token (r_map r)) (seq 0 nt)) rows)).
Proof.
  induction rows as [|r rows IH]; intro n; [reflexivity|]. cbn [full_rows map concat].
  rewrite full_row_items, items_app, map_length, IH. reflexivity.
Qed.
Definition kept_js (all : list trow) (r : trow) (nt : nat) : list nat := filter (check_include_char all r) (seq 0 nt).
Lemma kept_row_items w all r f js : forall n,
  kept_row w n all r f js = (items w n (map f (filter (check_include_char all r) js)), (n + List.length (filter (check_include_char all r) js))%nat).
Proof.
  induction js as [|j js IH]; intro n; cbn [kept_row map filter items List.length]; [f_equal; lia|].
  destruct (check_include_char all r j); rewrite IH; [|reflexivity]. cbn [map items List.length]. f_equal. lia.
Qed.
Lemma token_rows_items nt all rows : forall n,
  token_rows n nt all rows = items 3 n (concat (map (fun r => map Z.of_nat (kept_js all r nt)) rows)).
Proof.
  induction rows as [|r rows IH]; intro n; [reflexivity|]. cbn [token_rows map concat].
  rewrite kept_row_items, items_app, map_length, IH. reflexivity.
Qed.
Fixpoint starts_at (n : nat) (ls : list nat) : list Z :=
  match ls with [] => [Z.of_nat n] | k :: ls => Z.of_nat n :: starts_at (n + k) ls end.
Lemma next_rows_items nt all rows : forall n,
  next_rows n nt all rows =
  (items 5 n (concat (map (fun r => map (at_token (r_map r)) (kept_js all r nt)) rows)),
   starts_at n (map (fun r => List.length (kept_js all r nt)) rows)).
Proof.
  induction rows as [|r rows IH]; intro n; [reflexivity|]. cbn [next_rows map concat starts_at].
  rewrite kept_row_items, items_app, map_length, IH. reflexivity.
Qed.

Lemma declared ty p s w l : declares (opening ty p s ++ items w 0 l ++ closing) ty (table_name p s) l.
Proof.
  change (table_name p s) with (named p s).
  exists (items w 0 l ++ nl)%string. split; [|apply items_read].
  unfold opening, closing. change newline with nl. rewrite !app_assoc_s. reflexivity.
Qed.
