(* terms.c: giving sumti their places in a bridi. *)
From Coq Require Import String List NArith Bool Arith.
From Verif Require Import Base TokData CmavoData TokModel TreeModel.
Import ListNotations.
Open Scope string_scope.
Open Scope list_scope.

(* terms.c:22-34 *)
Definition MAX_TERMS_IN_VECTOR : nat := 20.
Definition MAX_POS : nat := 20.
Definition FAI_OFFSET : nat := 101.

(* terms.c:38-54 TermType and TermVectorEntry; the node is given by its path *)
Inductive term : Type :=
| TRM_POS (n : path)
| TRM_FA (pos : nat) (n : path)
| TRM_FAhI (n : path)
| TRM_TAG (n : path).

(* terms.c:57-86 LinkConvEntry; a LinkConv is a list of these, e[0] first *)
Inductive link_conv : Type :=
| LC_LINKS (links : list term)
| LC_SE (conv : nat)
| LC_JAI
| LC_TAG (tag inner_tu2 : path).

(* terms.c:98-121 tv_catenate *)
Definition tv_catenate (s1 s2 : list term) : outcome (list term) :=
  if Nat.leb (List.length s1 + List.length s2) MAX_TERMS_IN_VECTOR then Ok (s1 ++ s2) else Abort.

(* terms.c:146-190 lc_append_se, lc_append_jai_tag, lc_append_jai, lc_append_links *)
Definition lc_append (lc : list link_conv) (e : link_conv) : outcome (list link_conv) :=
  if Nat.ltb (List.length lc) MAX_TERMS_IN_VECTOR then Ok (lc ++ [e]) else Abort.

(* terms.c:431-453 PlaceType and Place; the fields of the tag are part of the type.
   PT_JAI is never assigned anywhere. *)
Inductive place_type : Type := PT_ORD | PT_TAG (tag inner_tu2 : path) | PT_JAI.
Record place := Place { pl_type : place_type; pl_valid : bool; pl_taken : bool; pl_pos : nat }.

(* place[i] and fai[i] with MAX_POS elements each *)
Definition get (a : list place) (i : nat) : outcome place :=
  match nth_error a i with Some p => Ok p | None => UB UB_bounds end.
Fixpoint upd (a : list place) (i : nat) (p : place) : list place :=
  match a, i with
  | [], _ => []
  | _ :: a, O => p :: a
  | q :: a, S i => q :: upd a i p
  end.
Definition set (a : list place) (i : nat) (p : place) : outcome (list place) :=
  if Nat.ltb i (List.length a) then Ok (upd a i p) else UB UB_bounds.
(* place[i].taken = 1 *)
Definition take (p : place) : place := Place (pl_type p) (pl_valid p) true (pl_pos p).

(* one call of fixup_term_place, terms.c:456-495: the term and the place chained
   to its property list *)
Definition fixup : Type := path * place.

(* terms.c:505-527: the loop over FA places.  A place that is not valid is
   reported and the term gets no tag. *)
Fixpoint assign_fa (t : list term) (pl fai : list place) : outcome (list place * list place * list fixup) :=
  match t with
  | [] => Ok (pl, fai, [])
  | TRM_FA pos n :: t =>
      if Nat.ltb pos FAI_OFFSET then
        do p <- get pl pos;
        if pl_valid p then
          do pl <- set pl pos (take p);
          do (pl, fai, fs) <- assign_fa t pl fai;
          Ok (pl, fai, (n, p) :: fs)
        else assign_fa t pl fai
      else
        let pos := pos - FAI_OFFSET + 1 in
        do p <- get fai pos;
        if pl_valid p then
          do fai <- set fai pos (take p);
          do (pl, fai, fs) <- assign_fa t pl fai;
          Ok (pl, fai, (n, p) :: fs)
        else assign_fa t pl fai
  | _ :: t => assign_fa t pl fai
  end.

(* terms.c:534: while (place[base].taken) ++base; [a] is the array from base on *)
Fixpoint first_free (base : nat) (a : list place) : outcome nat :=
  match a with
  | [] => UB UB_bounds
  | p :: a => if pl_taken p then first_free (S base) a else Ok base
  end.

(* terms.c:530-556: the loop over unmarked places *)
Fixpoint assign_pos (t : list term) (pl : list place) (base : nat) : outcome (list place * list fixup) :=
  match t with
  | [] => Ok (pl, [])
  | TRM_POS n :: t =>
      do base <- first_free base (skipn base pl);
      if Nat.ltb MAX_POS base then assign_pos t pl base
      else
        do p <- get pl base;
        do pl <- set pl base (take p);
        do (pl, fs) <- assign_pos t pl (S base);
        Ok (pl, (n, p) :: fs)
  | TRM_FA pos _ :: t => assign_pos t pl (if Nat.ltb pos FAI_OFFSET then S pos else base)
  | _ :: t => assign_pos t pl base
  end.

(* terms.c:496-558 assign_terms_to_places *)
Definition assign_terms_to_places (t : list term) (pl fai : list place) (abase : nat)
  : outcome (list place * list place * list fixup) :=
  do (pl, fai, fs) <- assign_fa t pl fai;
  do (pl, gs) <- assign_pos t pl abase;
  Ok (pl, fai, fs ++ gs).

(* terms.c:667-669 and 686-688: number of the first fai place that is not valid *)
Fixpoint first_invalid (j : nat) (a : list place) : outcome nat :=
  match a with
  | [] => UB UB_bounds
  | p :: a => if pl_valid p then first_invalid (S j) a else Ok j
  end.
(* terms.c:670-673 and 689-692: for (; j>1; j--) fai[j] = fai[j-1]; then fai[1] = p *)
Definition push_fai (fai : list place) (p : place) : outcome (list place) :=
  match fai with
  | [] => UB UB_bounds
  | f0 :: rest =>
      do j <- first_invalid 1 rest;
      Ok (f0 :: p :: firstn (j - 1) rest ++ skipn j rest)
  end.

(* terms.c:650-701: one entry of the chain *)
Definition assign_link (e : link_conv) (pl fai : list place)
  : outcome (list place * list place * list fixup) :=
  match e with
  | LC_SE c =>
      do p1 <- get pl 1;
      do pc <- get pl c;
      do pl <- set pl 1 pc;
      do pl <- set pl c p1;
      Ok (pl, fai, [])
  | LC_TAG tag tu2 =>
      do p1 <- get pl 1;
      do fai <- push_fai fai p1;
      do pl <- set pl 1 (Place (PT_TAG tag tu2) true (pl_taken p1) (pl_pos p1));
      Ok (pl, fai, [])
  | LC_JAI =>
      do p1 <- get pl 1;
      do fai <- push_fai fai p1;
      do pl <- set pl 1 (Place PT_ORD true (pl_taken p1) (pl_pos p1));
      Ok (pl, fai, [])
  | LC_LINKS v => assign_terms_to_places v pl fai 2
  end.
Fixpoint assign_links (es : list link_conv) (pl fai : list place)
  : outcome (list place * list place * list fixup) :=
  match es with
  | [] => Ok (pl, fai, [])
  | e :: es =>
      do (pl, fai, fs) <- assign_link e pl fai;
      do (pl, fai, gs) <- assign_links es pl fai;
      Ok (pl, fai, fs ++ gs)
  end.

(* terms.c:637-645: the initial arrays (type and pos of fai are not set; they are
   not read while valid is 0) *)
Definition init_places : list place := map (Place PT_ORD true false) (seq 0 MAX_POS).
Definition init_fai : list place := repeat (Place PT_ORD false false 0) MAX_POS.

(* terms.c:618-707 assign_places: the chain is worked through from its end *)
Definition assign_places (pre post : list term) (lc : list link_conv) : outcome (list fixup) :=
  do (pl, fai, fs) <- assign_links (rev lc) init_places init_fai;
  do (pl, fai, gs) <- assign_terms_to_places pre pl fai 1;
  do (pl, fai, hs) <- assign_terms_to_places post pl fai 2;
  Ok (fs ++ gs ++ hs).

(* terms.c:560-616 assign_conversion: place[1].pos after the chain, stopping at a
   jai with a tag *)
Fixpoint conv_places (es : list link_conv) (pl : list place) : outcome (list place) :=
  match es with
  | [] => Ok pl
  | LC_SE c :: es =>
      do p1 <- get pl 1;
      do pc <- get pl c;
      do pl <- set pl 1 pc;
      do pl <- set pl c p1;
      conv_places es pl
  | LC_TAG _ _ :: _ => Ok pl
  | _ :: es => conv_places es pl
  end.
Definition assign_conversion (lc : list link_conv) : outcome nat :=
  do pl <- conv_places (rev lc) init_places;
  do p <- get pl 1;
  Ok (pl_pos p).
