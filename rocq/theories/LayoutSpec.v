(* What interlinear output should look like, without the line buffers. *)
From Coq Require Import String Ascii List NArith ZArith Bool Arith.
From Verif Require Import Base LayoutModel.
Import ListNotations.
Open Scope list_scope.

(* ---- blocks and lines ---- *)
Record block : Type := Block { loj : txt; eng : txt; tags : list txt }.
Definition wide (b : block) : nat := fold_right Nat.max 0 (List.length (loj b) :: List.length (eng b) :: map (@List.length _) (tags b)).
Definition pad (n : nat) (t : txt) : txt := t ++ repeat " "%char (n - List.length t).
Definition width (bs : list block) : nat := fold_right Nat.add 0 (map wide bs).
(* one row of a line: the part f of each block, filled up to the width of the block *)
Definition row (f : block -> txt) (bs : list block) : txt := concat (map (fun b => pad (wide b) (f b)) bs).
Definition tag (i : nat) (b : block) : txt := nth i (tags b) [].
Definition tag_rows (bs : list block) : nat := fold_right Nat.max 0 (map (fun b => List.length (tags b)) bs).
Definition printed (bs : list block) : txt :=
  row loj bs ++ eol ++ row eng bs ++ eol ++ concat (map (fun i => row (tag i) bs ++ eol) (seq 0 (tag_rows bs))) ++ eol.

(* ---- breaking into lines ---- *)
(* no block is put on a line where it does not fit, unless it is the first *)
Definition fits (W : Z) (l : list block) : Prop :=
  l <> [] /\ forall p b q, l = p ++ b :: q -> p <> [] -> (Z.of_nat (width p + wide b) <= W)%Z.
(* and no line ends where the next block would have fitted *)
Definition full (W : Z) (ls : list (list block)) : Prop :=
  forall pre l1 b r post, ls = pre ++ l1 :: (b :: r) :: post -> (Z.of_nat (width l1 + wide b) > W)%Z.
Definition broken (W : Z) (bs : list block) (ls : list (list block)) : Prop :=
  concat ls = bs /\ Forall (fits W) ls /\ full W ls.

(* ---- the whole output ---- *)
(* a block, or a break for so many ends of lines in the text *)
Inductive ev : Type := B (b : block) | Rest (n : N).
Definition sep (n : N) : txt := if N.ltb 1 n then eol ++ rule ++ eol else eol.
Inductive laid (W : Z) : list ev -> txt -> Prop :=
| laid_end bs ls : broken W bs ls -> laid W (map B bs) (concat (map printed ls))
| laid_rest bs ls n evs out : broken W bs ls -> laid W evs out ->
    laid W (map B bs ++ Rest n :: evs) (concat (map printed ls) ++ sep n ++ out).

(* ---- which blocks the calls make ---- *)
(* the texts so far, the finished tags, the tag being written, the line ends to come,
   whether the next tag is the first *)
Record grp : Type := Grp { g_loj : txt; g_eng : txt; g_tags : list txt; g_part : txt; g_eols : N; g_first : bool }.
Definition grp0 : grp := Grp [] [] [] [] 0 false.
Definition block_of (g : grp) : list ev :=
  if empty (g_loj g) && empty (g_eng g) && Nat.eqb (List.length (g_tags g)) 0 then [] else [B (Block (g_loj g) (g_eng g) (g_tags g))].
Definition cleared (g : grp) : grp :=
  if empty (g_loj g) && empty (g_eng g) && Nat.eqb (List.length (g_tags g)) 0 then g else Grp [] [] [] [] (g_eols g) (g_first g).
Definition rest_of (g : grp) : list ev := if N.ltb 0 (g_eols g) then [Rest (g_eols g)] else [].
Definition rested (g : grp) : grp := Grp (g_loj g) (g_eng g) (g_tags g) (g_part g) 0 (g_first g).
Definition texts (g : grp) : bool := negb (empty (g_loj g)) || negb (empty (g_eng g)).
Definition signs (x : string * string * string) (sub : txt) (g : grp) : grp :=
  let '(a1, a2, a3) := x in Grp (spaced (lit a1)) (spaced (lit a2)) [spaced (lit a3); spaced sub] [] (g_eols g) (g_first g).
(* [None]: a closing bracket comes when there are only tags, which would be lost *)
Definition group (o : op) (g : grp) : option (list ev * grp) :=
  match o with
  | Open t sub =>
      match open_signs t with
      | None => Some ([], g)
      | Some x =>
          if empty (g_part (cleared g)) then Some (block_of g ++ rest_of g, signs x sub (rested (cleared g))) else None
      end
  | Close t sub =>
      match close_signs t with
      | None => Some ([], g)
      | Some x =>
          if texts g then Some (block_of g, signs x sub (cleared g))
          else if Nat.eqb (List.length (g_tags g)) 0 && empty (g_part g) then Some ([], signs x sub g) else None
      end
  | Eols n => Some ([], Grp (g_loj g) (g_eng g) (g_tags g) (g_part g) (g_eols g + n) (g_first g))
  | Loj t =>
      let (e, g') := if empty (g_eng g) then ([], g) else (block_of g, cleared g) in
      Some (e ++ rest_of g', let g' := rested g' in Grp (spaced (g_loj g' ++ t)) (g_eng g') (g_tags g') (g_part g') (g_eols g') (g_first g'))
  | Trans t => Some ([], Grp (g_loj g) (if dollar t then g_eng g ++ special t else spaced (g_eng g ++ t)) (g_tags g) (g_part g) (g_eols g) (g_first g))
  | StartTags =>
      let (e, g') := if texts g then (block_of g, cleared g) else ([], g) in
      Some (e ++ rest_of g', Grp (g_loj g') (g_eng g') (g_tags g') (g_part g') 0 true)
  | EndTags => Some ([], Grp (g_loj g) (g_eng g) (g_tags g ++ [g_part g]) [] (g_eols g) (g_first g))
  | StartTag => Some ([], if g_first g then Grp (g_loj g) (g_eng g) (g_tags g) (g_part g) (g_eols g) false
                          else Grp (g_loj g) (g_eng g) (g_tags g ++ [g_part g]) [] (g_eols g) false)
  | TagText brivla place trans brac =>
      Some ([], Grp (g_loj g) (g_eng g) (g_tags g)
        (g_part g ++ spaced (brivla ++ place) ++ (if brac then lit "(" ++ trans ++ lit ") " else spaced trans)) (g_eols g) (g_first g))
  | PartTag t => Some ([], Grp (g_loj g) (g_eng g) (g_tags g) (g_part g ++ t) (g_eols g) (g_first g))
  end.
Fixpoint groups (os : list op) (g : grp) : option (list ev * grp) :=
  match os with
  | [] => Some ([], g)
  | o :: os =>
      match group o g with
      | None => None
      | Some (e, g) => match groups os g with None => None | Some (e', g) => Some (e ++ e', g) end
      end
  end.
(* all the blocks of a run *)
Definition blocks_of (os : list op) : option (list ev) :=
  match groups os grp0 with None => None | Some (e, g) => Some (e ++ block_of g) end.
Definition solid (e : ev) : Prop := match e with B b => 0 < wide b | Rest _ => True end.

(* what the calls put on the first and the second row *)
Definition loj_of (o : op) : txt :=
  match o with
  | Loj t => spaced t
  | Open t _ => match open_signs t with Some (a, _, _) => spaced (lit a) | None => [] end
  | Close t _ => match close_signs t with Some (a, _, _) => spaced (lit a) | None => [] end
  | _ => []
  end.
Definition eng_of (o : op) : txt :=
  match o with
  | Trans t => if dollar t then special t else spaced t
  | Open t _ => match open_signs t with Some (_, a, _) => spaced (lit a) | None => [] end
  | Close t _ => match close_signs t with Some (_, a, _) => spaced (lit a) | None => [] end
  | _ => []
  end.
Definition part_of (f : block -> txt) (e : ev) : txt := match e with B b => f b | Rest _ => [] end.

(* ---- room ---- *)
(* the texts and tags fit the block buffers; a tag is only written while there are
   fewer than 32 *)
Definition room (g : grp) : Prop :=
  List.length (g_loj g) < 512 /\ List.length (g_eng g) < 512 /\ List.length (g_part g) < 512 /\ List.length (g_tags g) <= 32
  /\ Forall (fun t => List.length t < 512) (g_tags g).
Definition writes_tag (o : op) : bool := match o with TagText _ _ _ _ | PartTag _ => true | _ => false end.
Fixpoint roomy (os : list op) (g : grp) : Prop :=
  room g /\
  match os with
  | [] => True
  | o :: os =>
      (writes_tag o = true -> List.length (g_tags g) < 32)
      /\ match group o g with Some (_, g) => roomy os g | None => True end
  end.

(* ---- the three rows of the simple glosser ---- *)
Definition cm_evs (o : cm_op) : list ev :=
  match o with
  | CWord a b c => [B (Block (spaced a) (spaced b) [spaced c])]
  | CNewline => [Rest 1]
  | CParen t => [B (Block (lit "( ") (lit "( ") [lit "( "]); B (Block (spaced t) [] [[]]); B (Block (lit ") ") (lit ") ") [lit ") "])]
  end.
(* each text with its space fits the buffer *)
Definition cm_small (o : cm_op) : Prop :=
  match o with
  | CWord a b c => List.length a < 511 /\ List.length b < 511 /\ List.length c < 511
  | CNewline => True
  | CParen t => List.length t < 511
  end.
