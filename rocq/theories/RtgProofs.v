(* Choice of words and line breaks of the random text generator. *)
From Coq Require Import Ascii String List Bool Arith NArith Lia.
From Verif Require Import TokData CmavoData ErasureProofs RtgData RtgModel RtgSpec.
Import ListNotations.
Open Scope string_scope.
Open Scope list_scope.

Lemma index_lt n y : (0 < n)%N -> random y -> (int_rnd n y < n)%N.
Proof. unfold int_rnd, random. intros P R. apply N.div_lt_upper_bound; [lia|]. nia. Qed.

Lemma choose_in w l y : l <> [] -> random y -> exists x, choose w l y = Some x /\ In x l.
Proof.
  intros N R. destruct l as [|x l]; [now elim N|].
  assert (K : forall i, (i < List.length (x :: l))%nat -> exists z, nth_error (x :: l) i = Some z /\ In z (x :: l)).
  { intros i I. destruct (nth_error (x :: l) i) as [z|] eqn:E; [exists z; split; [reflexivity|exact (nth_error_In _ _ E)]|].
    apply nth_error_None in E. lia. }
  destruct w; cbn [choose].
  - exists x. split; [reflexivity|left; reflexivity].
  - apply K. cbn [List.length]. replace (N.of_nat (S (List.length l)) - 1)%N with (N.of_nat (List.length l)) by lia.
    destruct (List.length l) as [|k]; [change (int_rnd (N.of_nat 0) y) with 0%N; cbn; lia|].
    pose proof (index_lt (N.of_nat (S k)) y ltac:(lia) R). lia.
  - apply K. pose proof (index_lt (N.of_nat (List.length (x :: l))) y ltac:(cbn [List.length]; lia) R). lia.
Qed.

(* the numbers that give an index are an interval of the expected size *)
Lemma interval n i : (0 < n)%N -> (i < n)%N ->
  exists a b, (forall y, int_rnd n y = i <-> (a <= y < b)%N) /\ (b <= 4294967296)%N /\
    (4294967296 / n <= b - a <= 4294967296 / n + 1)%N.
Proof.
  intros P I. set (m := 4294967296%N). 
  exists ((i * m + n - 1) / n)%N, (((i + 1) * m + n - 1) / n)%N. unfold int_rnd. fold m.
  assert (M : (0 < m)%N) by reflexivity. clearbody m.
  assert (C : forall k y, ((k * m + n - 1) / n <= y <-> k * m <= n * y)%N).
  { intros k y. pose proof (N.div_mod (k * m + n - 1) n ltac:(lia)) as E. pose proof (N.mod_lt (k * m + n - 1) n ltac:(lia)) as L.
    set (q := ((k * m + n - 1) / n)%N) in *. set (r := ((k * m + n - 1) mod n)%N) in *. clearbody q r. split; intro H; nia. }
  assert (D : forall k y, (k <= n * y / m <-> k * m <= n * y)%N).
  { intros k y. pose proof (N.div_mod (n * y) m ltac:(lia)) as E. pose proof (N.mod_lt (n * y) m ltac:(lia)) as L.
    set (q := (n * y / m)%N) in *. set (r := ((n * y) mod m)%N) in *. clearbody q r. split; intro H; nia. }
  split; [|split].
  - intro y. pose proof (C i y) as C1. pose proof (C (i + 1)%N y) as C2. pose proof (D i y) as D1. pose proof (D (i + 1)%N y) as D2.
    set (a := ((i * m + n - 1) / n)%N) in *. set (b := (((i + 1) * m + n - 1) / n)%N) in *. set (q := (n * y / m)%N) in *. clearbody a b q.
    set (u := (i * m)%N) in *. set (v := ((i + 1) * m)%N) in *. set (w := (n * y)%N) in *. clearbody u v w. lia.
  - apply C. nia.
  - pose proof (N.div_mod (i * m + n - 1) n ltac:(lia)) as E1. pose proof (N.mod_lt (i * m + n - 1) n ltac:(lia)) as L1.
    pose proof (N.div_mod ((i + 1) * m + n - 1) n ltac:(lia)) as E2. pose proof (N.mod_lt ((i + 1) * m + n - 1) n ltac:(lia)) as L2.
    pose proof (N.div_mod m n ltac:(lia)) as E3. pose proof (N.mod_lt m n ltac:(lia)) as L3.
    set (a := ((i * m + n - 1) / n)%N) in *. set (r1 := ((i * m + n - 1) mod n)%N) in *.
    set (b := (((i + 1) * m + n - 1) / n)%N) in *. set (r2 := (((i + 1) * m + n - 1) mod n)%N) in *.
    set (q := (m / n)%N) in *. set (r := (m mod n)%N) in *. clearbody a r1 b r2 q r.
    assert (X : (n * b + r2 = n * a + r1 + n * q + r)%N) by lia.
    assert (a + q <= b)%N by nia. assert (b <= a + q + 1)%N by nia. lia.
Qed.

Definition free (s : tok) : bool := tok_eqb s T_BRIVLA || tok_eqb s T_CMENE.
Lemma cells_ok : forallb (fun p => free (fst (fst p)) ||
  forallb (fun w => existsb (fun c => String.eqb (snd (fst c)) w && tok_eqb (snd c) (fst (fst p))) cmavo_cells) (snd p)) terminals = true.
Proof. vm_compute. reflexivity. Qed.
Lemma shape_ok : forallb (fun p => match snd p with [] => false | _ => true end && forallb (fun w => no_gap w && (String.length w <=? 7)%nat) (snd p)) terminals = true.
Proof. vm_compute. reflexivity. Qed.

Lemma terminal_word s w l y : In (s, w, l) terminals -> random y ->
  exists x, choose w l y = Some x /\ In x l /\ (s = T_BRIVLA \/ s = T_CMENE \/ cmavo_of s x).
Proof.
  intros T R. assert (N : l <> []).
  { pose proof shape_ok as K. rewrite forallb_forall in K. specialize (K _ T). cbn [snd] in K. intros ->. discriminate. }
  destruct (choose_in w l y N R) as (x & C & X). exists x. split; [exact C|]. split; [exact X|].
  pose proof cells_ok as K. rewrite forallb_forall in K. specialize (K _ T). cbn [fst snd] in K.
  apply orb_true_iff in K. destruct K as [K|K].
  - unfold free in K. apply orb_true_iff in K. destruct K as [K|K]; apply tok_eqb_eq in K; auto.
  - right. right. rewrite forallb_forall in K. specialize (K x X). apply existsb_exists in K.
    destruct K as ([[i v] t] & I & K). cbn [fst snd] in K. apply andb_true_iff in K. destruct K as [K1 K2].
    apply String.eqb_eq in K1. apply tok_eqb_eq in K2. subst. exists i. exact I.
Qed.
Lemma every_but_last l : (2 <= List.length l)%nat -> (N.of_nat (List.length l) <= 4294967296)%N ->
  (forall i, (i < List.length l - 1)%nat -> exists y, random y /\ choose Short l y = nth_error l i) /\
  (forall y, random y -> exists i, (i < List.length l - 1)%nat /\ choose Short l y = nth_error l i).
Proof.
  intros L B. split.
  - intros i I. destruct (interval (N.of_nat (List.length l) - 1) (N.of_nat i) ltac:(lia) ltac:(lia)) as (a & b & E & U & W & _).
    assert (Q : (1 <= 4294967296 / (N.of_nat (List.length l) - 1))%N) by (apply N.div_le_lower_bound; lia).
    exists a. split; [unfold random; lia|]. cbn [choose]. rewrite (proj2 (E a)) by lia. rewrite Nnat.Nat2N.id. reflexivity.
  - intros y R. pose proof (index_lt (N.of_nat (List.length l) - 1) y ltac:(lia) R). eexists. split; [|reflexivity]. lia.
Qed.

(* ---- the text ---- *)
Lemma sapp_assoc (a b c : string) : ((a ++ b) ++ c = a ++ (b ++ c))%string.
Proof. induction a as [|x a IH]; [reflexivity|]. exact (f_equal (String x) IH). Qed.
Lemma sapp_nil (a : string) : (a ++ "" = a)%string.
Proof. induction a as [|x a IH]; [reflexivity|]. exact (f_equal (String x) IH). Qed.
Lemma sapp_length (a b : string) : String.length (a ++ b) = (String.length a + String.length b)%nat.
Proof. induction a as [|x a IH]; [reflexivity|]. exact (f_equal S IH). Qed.
Fixpoint text (n : nat) (xs : list string) : string :=
  match xs with
  | [] => ""
  | x :: xs =>
      let k := (n + String.length x)%nat in
      if (72 <? k)%nat then (x ++ String newline (text 0 xs))%string else (x ++ String " " (text (S k) xs))%string
  end.
Lemma emitted_text xs : forall o n, fst (fold_left emit xs (o, n)) = (o ++ text n xs)%string.
Proof.
  induction xs as [|x xs IH]; intros o n; [cbn [fold_left fst text]; now rewrite sapp_nil|].
  cbn [fold_left emit text]. destruct (72 <? n + String.length x)%nat; rewrite IH, !sapp_assoc; reflexivity.
Qed.
Lemma cut_pass f x : forall cur s, (forall c, f c = true -> (Ascii.eqb c " " || Ascii.eqb c newline) = true) -> no_gap x = true ->
  cut f cur (x ++ s) = cut f (cur ++ x) s.
Proof.
  induction x as [|c x IH]; intros cur s F G; [now rewrite sapp_nil|].
  cbn [no_gap] in G. apply andb_true_iff in G. destruct G as [G1 G2]. apply negb_true_iff in G1.
  cbn [append cut]. destruct (f c) eqn:E; [apply F in E; congruence|].
  rewrite IH, sapp_assoc by assumption. reflexivity.
Qed.
Lemma text_words xs : forall n, Forall (fun x => no_gap x = true) xs -> words (text n xs) = xs ++ [""].
Proof.
  induction xs as [|x xs IH]; intros n F; [reflexivity|]. inversion F as [|a b G H E]. subst a b. unfold words in *.
  cbn [text]. destruct (72 <? n + String.length x)%nat; rewrite cut_pass by auto; cbn [append app]; [rewrite <- (IH 0%nat H)|rewrite <- (IH (S (n + String.length x)) H)]; reflexivity.
Qed.
Lemma text_lines M xs : forall n cur, String.length cur = n -> (n <= 73)%nat -> Forall (fun x => no_gap x = true /\ (String.length x <= M)%nat) xs ->
  Forall (fun l => (String.length l <= 73 + M)%nat) (cut (Ascii.eqb newline) cur (text n xs)).
Proof.
  induction xs as [|x xs IH]; intros n cur L B F.
  - cbn [text cut]. constructor; [lia|constructor].
  - inversion F as [|a b [G1 G2] H E]. subst a b. cbn [text].
    assert (P : forall c, Ascii.eqb newline c = true -> (Ascii.eqb c " " || Ascii.eqb c newline) = true).
    { intros c Hc. apply Ascii.eqb_eq in Hc. subst c. reflexivity. }
    destruct (Nat.ltb_spec 72 (n + String.length x)); rewrite (cut_pass _ _ _ _ P G1); cbn [cut].
    + change (Ascii.eqb newline newline) with true. cbv iota. constructor; [rewrite sapp_length; lia|]. apply IH; [reflexivity|lia|exact H].
    + change (Ascii.eqb newline " ") with false. cbv iota. apply IH; [|lia|exact H]. rewrite !sapp_length. cbn [String.length]. lia.
Qed.
Lemma output_text xs : Forall (fun x => exists s w l, In (s, w, l) terminals /\ In x l) xs ->
  words (fst (emitted xs)) = xs ++ [""] /\ Forall (fun l => (String.length l <= 80)%nat) (lines (fst (emitted xs))).
Proof.
  intro F. assert (K : Forall (fun x => no_gap x = true /\ (String.length x <= 7)%nat) xs).
  { apply Forall_forall. intros x X. rewrite Forall_forall in F. destruct (F x X) as (s & w & l & T & I).
    pose proof shape_ok as S. rewrite forallb_forall in S. specialize (S _ T). cbn [snd] in S. apply andb_true_iff in S. destruct S as [_ S].
    rewrite forallb_forall in S. specialize (S x I). apply andb_true_iff in S. destruct S as [S1 S2]. apply Nat.leb_le in S2. auto. }
  unfold emitted. rewrite emitted_text. change ("" ++ text 0 xs)%string with (text 0 xs). split.
  - apply text_words. eapply Forall_impl; [|exact K]. intros a [A _]. exact A.
  - apply (text_lines 7 xs 0 ""); [reflexivity|lia|exact K].
Qed.
Lemma last_ok : forallb (fun p => match snd (fst p) with Short => (2 <=? List.length (snd p))%nat && negb (existsb (String.eqb (last (snd p) "")) (removelast (snd p))) | _ => true end) terminals = true.
Proof. vm_compute. reflexivity. Qed.
Lemma in_front (l : list string) i x : (i < List.length l - 1)%nat -> nth_error l i = Some x -> In x (removelast l).
Proof.
  revert i. induction l as [|a l IH]; intros i I E; [cbn in I; lia|]. destruct l as [|b l]; [cbn in I; lia|].
  change (removelast (a :: b :: l)) with (a :: removelast (b :: l)). destruct i as [|i]; cbn [nth_error] in E.
  - injection E as <-. left. reflexivity.
  - right. apply (IH i); [cbn [List.length] in *; lia|exact E].
Qed.
Lemma never_last s l y : In (s, Short, l) terminals -> random y -> choose Short l y <> Some (last l "").
Proof.
  intros T R E. pose proof last_ok as K. rewrite forallb_forall in K. specialize (K _ T). cbn [fst snd] in K.
  apply andb_true_iff in K. destruct K as [K1 K2]. apply Nat.leb_le in K1. apply negb_true_iff in K2.
  pose proof (index_lt (N.of_nat (List.length l) - 1) y ltac:(lia) R) as I.
  cbn [choose] in E. apply in_front in E; [|lia].
  assert (T2 : existsb (String.eqb (last l "")) (removelast l) = true) by (apply existsb_exists; exists (last l ""); split; [exact E|apply String.eqb_refl]).
  congruence.
Qed.
