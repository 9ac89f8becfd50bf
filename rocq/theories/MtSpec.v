(* The Mersenne Twister as its authors give it: a sequence of numbers of 32 bits. *)
From Coq Require Import List NArith ZArith Bool Arith.
From Verif Require Import Base.
Open Scope N_scope.

(* the top bit of u and the other bits of v *)
Definition joined (u v : N) : N := u / 2 ^ 31 * 2 ^ 31 + v mod 2 ^ 31.
(* M. Matsumoto, T. Nishimura: n = 624, m = 397, r = 31 and the matrix A *)
Definition follows (x : nat -> N) : Prop :=
  forall k, x (k + 624)%nat = N.lxor (N.lxor (x (k + 397)%nat) (joined (x k) (x (k + 1)%nat) / 2)) (if N.odd (x (k + 1)%nat) then 0x9908b0df else 0).
(* a linear congruential generator of 32 bits *)
Fixpoint lcg (seed : N) (n : nat) : N := match n with O => seed mod 2 ^ 32 | S n => (69069 * lcg seed n + 1) mod 2 ^ 32 end.
(* the first numbers: the seed, then the upper halves of two numbers each *)
Definition seeded (seed : N) (x : nat -> N) : Prop :=
  x 0%nat = seed mod 2 ^ 32 /\
  forall i, (0 < i < 624)%nat -> x i = lcg seed (2 * (i - 1)) / 2 ^ 16 * 2 ^ 16 + lcg seed (2 * (i - 1) + 1) / 2 ^ 16.
(* the tempering of the authors *)
Definition temper (y : N) : N :=
  let y := N.lxor y (y / 2 ^ 11) in
  let y := N.lxor y (N.land (y * 2 ^ 7 mod 2 ^ 32) 0x9d2c5680) in
  let y := N.lxor y (N.land (y * 2 ^ 15 mod 2 ^ 32) 0xefc60000) in
  N.lxor y (y / 2 ^ 18).
