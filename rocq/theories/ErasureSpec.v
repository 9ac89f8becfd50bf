(* Independent specification of the erasure words si, sa, su.  Nothing here
   refers to the loops of TokModel; only to the node type and to what a word is. *)
From Coq Require Import String List NArith Bool Arith.
From Verif Require Import Base TokData CmavoData TokModel.
Import ListNotations.

(* "x is a cmavo of selma'o t" *)
Definition cmavo_of (t : tok) (x : node) : Prop :=
  exists code f, dat x = N_CMAVO t code f.

(* How many words an item is made of, as the user wrote it:
   a plain word 1; zo + word 2; lo'u + text + le'u 3; zoi + delimiter + text +
   delimiter 4; a remnant has a remembered number left.  None: not something that
   can stand in the text at this stage (garbage words stop the program earlier). *)
Definition units (d : ndata) : option nat :=
  match d with
  | N_BRIVLA _ _ => Some 1
  | N_CMENE _ => Some 1
  | N_CMAVO _ _ _ => Some 1
  | N_ZO _ => Some (1 + 1)
  | N_LOhU _ => Some (1 + 1 + 1)
  | N_ZOI _ _ _ => Some (1 + 1 + 1 + 1)
  | N_BROKEN_ERASURE k => Some k
  | _ => None
  end.

(* take one unit off an item *)
Definition nibble (y : node) : option (list node) :=
  match units (dat y) with
  | None => None
  | Some 0 => Some []
  | Some 1 => Some []
  | Some (S k) => Some [set_dat (N_BROKEN_ERASURE k) y]
  end.

(* One word at a time; the stack holds the surviving items, last one first.
   The second component records the positions of si words that had nothing to
   erase (a warning is printed for each); such a si stands as a word itself. *)
Definition si_word (st : option (list node * list (N * N))) (x : node)
  : option (list node * list (N * N)) :=
  match st with
  | None => None
  | Some (stack, warns) =>
      match dat x with
      | N_CMAVO T_SI _ _ =>
          match stack with
          | [] => Some ([x], (line x, col x) :: warns)
          | y :: below =>
              match nibble y with
              | None => None
              | Some l => Some ((l ++ below)%list, warns)
              end
          end
      | _ => Some (x :: stack, warns)
      end
  end.
Definition si_spec (toks : list node) : option (list node * list (N * N)) :=
  fold_left si_word toks (Some ([], [])).

(* "same kind of word" for sa *)
Definition same_kind (y w : node) : Prop :=
  match dat y, dat w with
  | N_CMAVO s _ _, N_CMAVO s' _ _ => s = s'
  | N_BRIVLA _ _, N_BRIVLA _ _ => True
  | N_CMENE _, N_CMENE _ => True
  | N_ZOI _ _ _, N_ZOI _ _ _ => True
  | N_ZO _, N_ZO _ => True
  | N_LOhU _, N_LOhU _ => True
  | N_GARBAGE _, N_GARBAGE _ => True
  | N_BROKEN_ERASURE _, N_BROKEN_ERASURE _ => True
  | N_MARKER _, N_MARKER _ => True
  | N_BU _, N_BU _ => True
  | N_ZEI _ _ _, N_ZEI _ _ _ => True
  | _, _ => False
  end.

(* What sa processing must do: [f] is characterised by what happens at the first
   sa of the text. *)
Record sa_law (f : list node -> list node) : Prop := {
  sa_none : forall l, Forall (fun x => ~ cmavo_of T_SA x) l -> f l = l;
  sa_last : forall l s, Forall (fun x => ~ cmavo_of T_SA x) l -> cmavo_of T_SA s ->
      f (l ++ [s])%list = (l ++ [s])%list;
  sa_found : forall l y mid s w rest,
      Forall (fun x => ~ cmavo_of T_SA x) (l ++ y :: mid)%list ->
      cmavo_of T_SA s -> same_kind y w -> Forall (fun m => ~ same_kind m w) mid ->
      f (l ++ y :: mid ++ s :: w :: rest)%list = f (l ++ w :: rest)%list;
  sa_notfound : forall l s w rest,
      Forall (fun x => ~ cmavo_of T_SA x) l -> cmavo_of T_SA s ->
      Forall (fun m => ~ same_kind m w) l ->
      f (l ++ s :: w :: rest)%list = f (w :: rest)
}.

(* discourse boundary for su *)
Definition boundary (y : node) : Prop :=
  cmavo_of T_NIhO y \/ cmavo_of T_LU y \/ cmavo_of T_TUhE y \/ cmavo_of T_TO y.

Record su_law (f : list node -> list node) : Prop := {
  su_none : forall l, Forall (fun x => ~ cmavo_of T_SU x) l -> f l = l;
  su_double : forall l s s' rest,
      Forall (fun x => ~ cmavo_of T_SU x) l -> cmavo_of T_SU s -> cmavo_of T_SU s' ->
      f (l ++ s :: s' :: rest)%list = f rest;
  su_found : forall l y mid s rest,
      Forall (fun x => ~ cmavo_of T_SU x) (l ++ y :: mid)%list -> cmavo_of T_SU s ->
      boundary y -> Forall (fun m => ~ boundary m) mid ->
      (forall s' r', rest = s' :: r' -> ~ cmavo_of T_SU s') ->
      f (l ++ y :: mid ++ s :: rest)%list = f (l ++ rest)%list;
  su_notfound : forall l s rest,
      Forall (fun x => ~ cmavo_of T_SU x) l -> cmavo_of T_SU s ->
      Forall (fun m => ~ boundary m) l ->
      (forall s' r', rest = s' :: r' -> ~ cmavo_of T_SU s') ->
      f (l ++ s :: rest)%list = f rest
}.
