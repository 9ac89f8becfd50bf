(* Property theorems C84: the random numbers of the text generator. *)
From Coq Require Import List NArith ZArith Bool Arith.
From Verif Require Import Base MtModel MtSpec MtProofs.
Import ListNotations.
Open Scope N_scope.

(* For every seed and any number of calls, whatever the width of unsigned long, the numbers written are
   the tempered numbers of the Mersenne Twister from its 625th on, in order, and no access is
   outside the array. *)
Theorem C84_twister : forall w seed n x, 32 <= w -> seeded seed x -> follows x ->
  main w seed n = Ok (map (fun i => temper (x (624 + i)%nat)) (seq 0 n)).
Proof. exact twister. Qed.
Print Assumptions C84_twister.
(* there is always such a sequence *)
Theorem C84_sequence : forall seed, exists x, seeded seed x /\ follows x.
Proof. exact exists_seq. Qed.
Print Assumptions C84_sequence.
(* the first number for the seed that is used when none is given *)
Example C84_case : forall l, main 64 12345 1 = Ok l -> l = [2964449246].
Proof.
  intros l H. destruct (exists_seq 12345) as (x & S & F). rewrite (twister 64 12345 1 x) in H by (exact S || exact F || (vm_compute; discriminate)).
  injection H as <-. pose proof (F 0%nat) as X. destruct S as [S0 S1]. cbn [Nat.add] in X. rewrite S0, (S1 1%nat), (S1 397%nat) in X by (split; repeat constructor).
  cbn [seq map Nat.add]. rewrite X. vm_compute. reflexivity.
Qed.

(* All numbers have 32 bits, also where unsigned long has more and for seeds that have more. *)
Theorem C84_range : forall w seed n l, 32 <= w -> main w seed n = Ok l -> Forall (fun y => y < 2 ^ 32) l.
Proof.
  intros w seed n l W H. destruct (exists_seq seed) as (x & S & F). rewrite (twister w seed n x W S F) in H. injection H as <-.
  apply Forall_forall. intros y Y. apply in_map_iff in Y. destruct Y as (i & <- & _). apply temper_small. exact (seq_small seed x S F _).
Qed.
Print Assumptions C84_range.

(* Every seed can be used: the generator never starts in the state in which all numbers are 0. *)
Theorem C84_seed : forall seed x, seeded seed x -> exists i, (0 < i < 624)%nat /\ x i <> 0.
Proof.
  intros seed x S. destruct (not_zero seed x S) as [H|H]; [exists 1%nat | exists 2%nat]; (split; [split; repeat constructor | exact H]).
Qed.
Print Assumptions C84_seed.
Example C84_seed_case : exists x, seeded 0 x /\ x 1%nat = 0 /\ x 2%nat <> 0.
Proof. destruct (exists_seq 0) as (x & S & F). exists x. split; [exact S |]. destruct S as [S0 S1]. rewrite (S1 1%nat), (S1 2%nat) by (split; repeat constructor). split; vm_compute; [reflexivity | discriminate]. Qed.
