(* memory.c: the counting allocator.  The memory is the words stored at the start of the
   blocks got from malloc; what malloc and realloc return is given with each call. *)
From Coq Require Import List NArith Bool.
From Verif Require Import Base.
Import ListNotations.
Open Scope N_scope.

(* arithmetic in unsigned long / size_t (64 bits) *)
Definition wrap (x : N) : N := x mod 2 ^ 64.
Definition sub64 (a b : N) : N := wrap (a + (2 ^ 64 - wrap b)).

(* memory.c:14-15 and the headers: address of a block from malloc, its first word *)
Record mem : Type := Mem { in_use : N; max_use : N; heads : list (N * N) }.
Definition mem0 : mem := Mem 0 0 [].

(* the word at address s *)
Fixpoint head_at (s : N) (h : list (N * N)) : option N :=
  match h with [] => None | (a, v) :: h => if N.eqb a s then Some v else head_at s h end.
(* free(s) *)
Fixpoint drop (s : N) (h : list (N * N)) : list (N * N) :=
  match h with [] => [] | (a, v) :: h => if N.eqb a s then h else (a, v) :: drop s h end.

(* [got] is the result of malloc / realloc, None for NULL *)
Inductive mem_op : Type := Malloc (n : N) (got : option N) | Realloc (old n : N) (got : option N) | Free (x : N).

(* memory.c:28-30, 55-57 *)
Definition note_max (m : mem) : mem := if max_use m <? in_use m then Mem (in_use m) (in_use m) (heads m) else m.
(* memory.c:32-36, 59-63: the header is written and the address after it returned; a
   block smaller than the header is overrun (n + 8 wraps) *)
Definition put_head (n : N) (got : option N) (m : mem) : outcome (mem * N) :=
  match got with
  | None => UB UB_null
  | Some s => if wrap (n + 8) <? 8 then UB UB_bounds else Ok (Mem (in_use m) (max_use m) ((s, n) :: heads m), s + 8)
  end.
(* (char * ) x - 8 and the word there; UB if x is not such a block *)
Definition header (x : N) (m : mem) : outcome (N * N) :=
  if x <? 8 then UB UB_other
  else match head_at (x - 8) (heads m) with None => UB UB_other | Some v => Ok (x - 8, v) end.

(* memory.c:21-39 Malloc, 44-66 Realloc, 72-86 Free; the pointer returned, 0 for Free *)
Definition mem_step (o : mem_op) (m : mem) : outcome (mem * N) :=
  match o with
  | Malloc n got => put_head n got (note_max (Mem (wrap (in_use m + n)) (max_use m) (heads m)))
  | Realloc old n got =>
      do h <- header old m;
      let (s, v) := h in
      put_head n got (note_max (Mem (wrap (sub64 (in_use m) v + n)) (max_use m) (drop s (heads m))))
  | Free x =>
      do h <- header x m;
      let (s, v) := h in
      Ok (Mem (sub64 (in_use m) v) (max_use m) (drop s (heads m)), 0)
  end.
Fixpoint mem_run (os : list mem_op) (m : mem) : outcome mem :=
  match os with [] => Ok m | o :: os => do r <- mem_step o m; mem_run os (fst r) end.
(* memory.c:92-100 print_memory_statistics: the two numbers *)
Definition statistics (m : mem) : N * N := (in_use m, max_use m).
