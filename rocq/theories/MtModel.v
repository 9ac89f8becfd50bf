(* rtg/mymt.c: the random numbers of the text generator. *)
From Coq Require Import List NArith ZArith Bool Arith.
From Verif Require Import Base.
Open Scope N_scope.

Section WIDTH.
(* the number of bits of unsigned long *)
Variable w : N.
(* arithmetic of unsigned long *)
Definition wrap (x : N) : N := x mod 2 ^ w.

(* rtg/mymt.c:53-77: the constants *)
Definition M31 : N := 0x80000000.
Definition M0 : N := 1.
Definition M300 : N := 0x7fffffff.
Definition K : N := 0x9908b0df.
Definition C1 : N := 0x9d2c5680.
Definition C2 : N := 0xefc60000.
(* rtg/mymt.c:47-51 *)
Definition msb (u : N) : N := N.land u M31.
Definition lsb (u : N) : N := N.land u M0.
Definition lo (u : N) : N := N.land u M300.
Definition mix (u v : N) : N := N.lor (msb u) (lo v).

(* rtg/mymt.c:71 state[625] *)
Definition mem : Type := nat -> N.
(* *p *)
Definition rd (m : mem) (p : nat) : outcome N := if Nat.ltb p 625 then Ok (m p) else UB UB_bounds.
(* *p = v *)
Definition wr (m : mem) (p : nat) (v : N) : outcome mem :=
  if Nat.ltb p 625 then Ok (fun i => if Nat.eqb i p then v else m i) else UB UB_bounds.

(* rtg/mymt.c:53-72 struct mt_state, without the constants *)
Record mt : Type := Mt { left : Z; next : nat; keep : N; state : mem }.
(* rtg/mymt.c:74-78 *)
Definition mt0 : mt := Mt (-1) 0 0 (fun _ => 0).

(* rtg/mymt.c:97-103: the loop, n times *)
Fixpoint seed_loop (n : nat) (m : mem) (s : nat) (x : N) : outcome mem :=
  match n with
  | O => Ok m
  | S n =>
      let y := N.land x 0xffff0000 in
      let x := wrap (69069 * x + 1) in
      let y := N.lor y (N.shiftr (N.land x 0xffff0000) 16) in
      do m <- wr m s y;
      seed_loop n m (S s) (wrap (69069 * x + 1))
  end.
(* rtg/mymt.c:90-104 seedmt *)
Definition seedmt (t : mt) (seed : N) : outcome mt :=
  do m <- wr (state t) 0 seed;
  do m <- seed_loop 623 m 1 seed;
  Ok (Mt 0 (next t) (keep t) m).

(* rtg/mymt.c:112-117: what reloadmt has in registers *)
Record regs : Type := Regs { p0 : nat; p2 : nat; pM : nat; a : N; b : N; c : N; m : mem }.
(* rtg/mymt.c:125-131 and 157-163: an entry from a and b *)
Definition stepA (r : regs) : outcome regs :=
  let p := N.shiftr (mix (a r) (b r)) 1 in
  do a' <- rd (m r) (p2 r);
  let q := if N.eqb (lsb (b r)) 0 then 0 else K in
  let x := N.lxor (N.lxor (c r) p) q in
  do c' <- rd (m r) (pM r);
  do m' <- wr (m r) (p0 r) x;
  Ok (Regs (S (p0 r)) (S (p2 r)) (S (pM r)) a' (b r) c' m').
(* rtg/mymt.c:132-138 and 150-156: an entry from b and a *)
Definition stepB (r : regs) : outcome regs :=
  let p := N.shiftr (mix (b r) (a r)) 1 in
  do b' <- rd (m r) (p2 r);
  let q := if N.eqb (lsb (a r)) 0 then 0 else K in
  let y := N.lxor (N.lxor (c r) p) q in
  do c' <- rd (m r) (pM r);
  do m' <- wr (m r) (p0 r) y;
  Ok (Regs (S (p0 r)) (S (p2 r)) (S (pM r)) (a r) b' c' m').
(* a loop *)
Fixpoint times {A} (n : nat) (f : A -> outcome A) (x : A) : outcome A :=
  match n with O => Ok x | S n => do x <- f x; times n f x end.
(* rtg/mymt.c:140-148: the entry at which pM goes back to the front *)
Definition step_mid (r : regs) : outcome regs :=
  let p := N.shiftr (mix (a r) (b r)) 1 in
  do a' <- rd (m r) (p2 r);
  let q := if N.eqb (lsb (b r)) 0 then 0 else K in
  let x := N.lxor (N.lxor (c r) p) q in
  do m' <- wr (m r) (p0 r) x;
  do c' <- rd m' 0;
  do m' <- wr m' 624 c';
  Ok (Regs (S (p0 r)) (S (p2 r)) 1 a' (b r) c' m').
(* rtg/mymt.c:109-180 reloadmt *)
Definition reloadmt (t : mt) : outcome mt :=
  do a0 <- rd (state t) 0; do b0 <- rd (state t) 1; do c0 <- rd (state t) 397;
  do r <- times 113 (fun r => do r <- stepA r; stepB r) (Regs 0 2 398 a0 b0 c0 (state t));
  do r <- step_mid r;
  do r <- times 198 (fun r => do r <- stepB r; stepA r) r;
  do m' <- wr (m r) 623 (N.lxor (N.lxor (c r) (N.shiftr (mix (b r) (a r)) 1)) (if N.eqb (lsb (a r)) 0 then 0 else K));
  Ok (Mt 623 0 (keep t) m').

(* rtg/mymt.c:201-208 *)
Definition tempered (y : N) : N :=
  let y := N.lxor y (N.shiftr y 11) in
  let y := N.lxor y (N.land (wrap (N.shiftl y 7)) C1) in
  let y := N.lxor y (N.land (wrap (N.shiftl y 15)) C2) in
  N.lxor y (N.shiftr y 18).
(* rtg/mymt.c:186-213 getmt; reloadmt returns 623 *)
Definition getmt (t : mt) : outcome (mt * N) :=
  let l := (left t - 1)%Z in
  do tl <- (if (l <? 0)%Z then do t <- reloadmt t; Ok (t, 623%Z) else Ok (t, l));
  let t := fst tl in
  let l := snd tl in
  if negb (Z.odd l) then Ok (Mt l (next t) (keep t) (state t), keep t)
  else
    do y0 <- rd (state t) (next t);
    do y1 <- rd (state t) (S (next t));
    Ok (Mt l (S (S (next t))) (tempered y1) (state t), tempered y0).

(* rtg/mymt.c:234-238: the loop in main, n times; what is written are the low four bytes *)
Fixpoint numbers (n : nat) (t : mt) : outcome (list N) :=
  match n with
  | O => Ok nil
  | S n => do r <- getmt t; do l <- numbers n (fst r); Ok (cons (snd r mod 2 ^ 32) l)
  end.
(* rtg/mymt.c:215-238 main *)
Definition main (seed : N) (n : nat) : outcome (list N) := do t <- seedmt mt0 seed; numbers n t.
End WIDTH.
