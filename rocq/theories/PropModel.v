(* properties.c: facts kept at the nodes of a parse tree. *)
From Coq Require Import List Bool Arith ZArith.
From Verif Require Import Base.
Import ListNotations.

(* nodes.h:129-148 ExtensionType *)
Inductive ext : Type :=
| EX_CONV | EX_BAICONV | EX_DONTGLOSS | EX_TERMVECTORS | EX_TERMVECTOR | EX_TERMTAGS | EX_GLOSSTYPE | EX_DONETU1 | EX_DONES3
| EX_TENSECTX | EX_NEGINDICATOR | EX_CAIINDICATOR | EX_CONNECTIVE | EX_ANTECEDENT | EX_REQUIREBRAC | EX_RELCLAUSELINK
| EX_CONTAINSKEHA | EX_ELIDABLE.
(* == *)
Definition ext_eq_dec (a b : ext) : {a = b} + {a <> b}.
Proof. decide equality. Defined.

(* nodes.h:354-358 Extension.  The data, a union of structures, are fields with numbers, without a
   value until one is stored.  The address of a record is its number in the memory. *)
Record extension : Type := Extension { next : option nat; type : ext; data : nat -> option Z }.
(* the memory: the records, and x->ext of each node; nodes are told apart by a number *)
Record heap : Type := Heap { recs : list extension; ext_of_node : nat -> option nat }.
(* functions.c:81: at first no node has any *)
Definition heap0 : heap := Heap [] (fun _ => None).

(* properties.c:18-29 lookup_extension: the loop; fuel bounds the steps *)
Fixpoint lookup_loop (fuel : nat) (h : heap) (y : option nat) (t : ext) : outcome (option nat) :=
  match fuel with
  | O => NoFuel
  | S fuel =>
      match y with
      | None => Ok None
      | Some p =>
          match nth_error (recs h) p with
          | None => UB UB_bounds
          | Some r => if ext_eq_dec (type r) t then Ok (Some p) else lookup_loop fuel h (next r) t
          end
      end
  end.
(* properties.c:18-29 lookup_extension *)
Definition lookup_extension (h : heap) (x : nat) (t : ext) : outcome (option nat) :=
  lookup_loop (S (length (recs h))) h (ext_of_node h x) t.
(* properties.c:36-51 obtain_extension *)
Definition obtain_extension (h : heap) (x : nat) (t : ext) : outcome (heap * nat) :=
  do y <- lookup_extension h x t;
  match y with
  | Some p => Ok (h, p)
  | None =>
      let p := length (recs h) in
      Ok (Heap (recs h ++ [Extension (ext_of_node h x) t (fun _ => None)]) (fun z => if Nat.eqb z x then Some p else ext_of_node h z), p)
  end.
(* properties.c:60-71 fetch_conversion *)
Definition fetch_conversion (h : heap) (x : nat) (create : bool) (t : ext) : outcome (heap * option nat) :=
  if create then do r <- obtain_extension h x t; Ok (fst r, Some (snd r))
  else do y <- lookup_extension h x t; Ok (h, y).

(* a field set through a pointer *)
Fixpoint put_at (l : list extension) (p f : nat) (v : Z) : option (list extension) :=
  match l, p with
  | [], _ => None
  | r :: l, O => Some (Extension (next r) (type r) (fun g => if Nat.eqb g f then Some v else data r g) :: l)
  | r :: l, S p => option_map (cons r) (put_at l p f v)
  end.
(* p->f = v *)
Definition put (h : heap) (p f : nat) (v : Z) : outcome heap :=
  match put_at (recs h) p f v with Some l => Ok (Heap l (ext_of_node h)) | None => UB UB_bounds end.
(* p->f *)
Definition get (h : heap) (p f : nat) : outcome (option Z) :=
  match nth_error (recs h) p with Some r => Ok (data r f) | None => UB UB_bounds end.

(* properties.c:77-265: the functions prop_... *)
Inductive prop : Type :=
| conversion | bai_conversion | dont_gloss | term_vectors | term_vector | term_tags | glosstype | done_tu1 | done_s3
| tense_ctx | neg_indicator | cai_indicator | connective | antecedent | require_brac | rel_clause_link | contains_keha | elidable.
(* the record each of them uses *)
Definition ext_of (p : prop) : ext :=
  match p with
  | conversion => EX_CONV (* properties.c:77-81 *)
  | bai_conversion => EX_BAICONV (* 87-91 *)
  | dont_gloss => EX_DONTGLOSS (* 97-101 *)
  | term_vectors => EX_TERMVECTORS (* 107-111 *)
  | term_vector => EX_TERMVECTOR (* 117-121 *)
  | term_tags => EX_TERMTAGS (* 127-131 *)
  | glosstype => EX_GLOSSTYPE (* 141-152 *)
  | done_tu1 => EX_DONETU1 (* 158-162 *)
  | done_s3 => EX_DONES3 (* 168-172 *)
  | tense_ctx => EX_TENSECTX (* 178-182 *)
  | neg_indicator => EX_NEGINDICATOR (* 188-192 *)
  | cai_indicator => EX_CAIINDICATOR (* 199-203 *)
  | connective => EX_CONNECTIVE (* 209-213 *)
  | antecedent => EX_ANTECEDENT (* 219-223 *)
  | require_brac => EX_REQUIREBRAC (* 230-234 *)
  | rel_clause_link => EX_RELCLAUSELINK (* 240-244 *)
  | contains_keha => EX_CONTAINSKEHA (* 250-254 *)
  | elidable => EX_ELIDABLE (* 260-264 *)
  end.
(* nodes.h:190-193: is_tertau is the second field of XGlosstype *)
Definition is_tertau : nat := 1.
(* properties.c:77-265 *)
Definition prop_ (h : heap) (x : nat) (p : prop) (create : bool) : outcome (heap * option nat) :=
  match p with
  | glosstype =>
      do r <- fetch_conversion h x false EX_GLOSSTYPE;
      match snd r, create with
      | None, true =>
          do r <- fetch_conversion (fst r) x true EX_GLOSSTYPE;
          match snd r with
          | Some q => do h <- put (fst r) q is_tertau 0; Ok (h, Some q)
          | None => UB UB_bounds
          end
      | _, _ => Ok r
      end
  | _ => fetch_conversion h x create (ext_of p)
  end.

(* what the rest of the program does with them: asks for a property, sets a field through
   a pointer it got, reads one *)
Inductive use : Type := Ask (x : nat) (p : prop) (create : bool) | Set_ (q f : nat) (v : Z) | Look (q f : nat).
(* what it gets *)
Inductive answer : Type := Pointer (q : option nat) | Done | Value (v : option Z).
(* one use *)
Definition do_use (h : heap) (u : use) : outcome (heap * answer) :=
  match u with
  | Ask x p create => do r <- prop_ h x p create; Ok (fst r, Pointer (snd r))
  | Set_ q f v => do h <- put h q f v; Ok (h, Done)
  | Look q f => do v <- get h q f; Ok (h, Value v)
  end.
(* uses one after the other *)
Fixpoint do_uses (h : heap) (us : list use) : outcome (list answer) :=
  match us with
  | [] => Ok []
  | u :: us => do r <- do_use h u; do l <- do_uses (fst r) us; Ok (snd r :: l)
  end.
