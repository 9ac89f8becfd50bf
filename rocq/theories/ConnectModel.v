(* connect.c: truth functions of logical connectives, negation marks of the others. *)
From Coq Require Import String List NArith Bool Arith.
From Verif Require Import Base TokData CmavoData TokModel TreeModel.
Import ListNotations.
Open Scope string_scope.
Open Scope list_scope.

(* connect.c:24-30 truth_ex *)
Definition truth_ex : list string :=
  [ "FFFF"; "FFFT"; "FFTF"; "FFTT";
    "FTFF"; "FTFT"; "FTTF"; "FTTT";
    "TFFF"; "TFFT"; "TFTF"; "TFTT";
    "TTFF"; "TTFT"; "TTTF"; "TTTT";
    "QQQQ" ].

(* connect.c:35-41 main_table *)
Definition main_table : list nat :=
  [ 14; 13; 11; 7; 14; 13; 11; 7;
    8; 4; 2; 1; 8; 4; 2; 1;
    9; 6; 6; 9; 9; 6; 6; 9;
    12; 12; 3; 3; 10; 5; 10; 5;
    16; 16; 16; 16; 16; 16; 16; 16 ].

(* connect.c:43-50 *)
Inductive truth_function : Set := TR_OTHER | TR_A | TR_E | TR_O | TR_U | TR_Q.

(* (int) func *)
Definition tr_index (f : truth_function) : nat :=
  match f with TR_OTHER => 0 | TR_A => 0 | TR_E => 1 | TR_O => 2 | TR_U => 3 | TR_Q => 4 end.

(* connect.c:65-84 generate_truth_index *)
Definition generate_truth_index (neg1 conv neg2 : bool) (f : truth_function) : outcome nat :=
  match f with
  | TR_OTHER => Abort
  | _ =>
      let index := 8 * tr_index f + 4 * Nat.b2n conv + 2 * Nat.b2n neg1 + Nat.b2n neg2 in
      match nth_error main_table index with Some r => Ok r | None => UB UB_bounds end
  end.

(* truth_ex[index] *)
Definition truth_text (i : nat) : outcome string :=
  match nth_error truth_ex i with Some s => Ok s | None => UB UB_bounds end.

(* nodes.h enum connective_position *)
Inductive cnp : Set :=
| CNP_GE | CNP_GI | CNP_GE_JOIK | CNP_GI_JOIK | CNP_GE_STAG | CNP_GI_STAG | CNP_AFTER.

(* nodes.h XConnective: the fields that are set for a logical connective, and
   those set for another one ([js] is the joik or stag node) *)
Inductive xconnective : Type :=
| Logical (pos : cnp) (pattern : string)
| Other (pos : cnp) (js : path) (neg1 neg2 : bool).

(* an assignment through prop_connective(x, YES), properties.c: the node and the
   value written *)
Definition write : Type := path * xconnective.

Definition found {A} (o : option A) : bool := match o with Some _ => true | None => false end.

(* connect.c:95-122 process_afterthought *)
Definition process_afterthought (p : path) (ch : list tree) (f : truth_function) : outcome (list write) :=
  let na := find_nth_cmavo_child ch 1 T_NA in
  let se := find_nth_cmavo_child ch 1 T_SE in
  let nai := find_nth_cmavo_child ch 1 T_NAI in
  do i <- generate_truth_index (found na) (found se) (found nai) f;
  do s <- truth_text i;
  Ok [(p, Logical CNP_AFTER s)].

(* the chains of strcmp in process_jek .. process_gek: words and functions *)
Definition lookup_func (tab : list (string * truth_function)) (w : string) : truth_function :=
  match find (fun e => String.eqb (fst e) w) tab with Some (_, f) => f | None => TR_OTHER end.

(* connect.c:131-159 process_jek, 168-196 process_ek, 205-233 process_gihek *)
Definition process_after (core : tok) (tab : list (string * truth_function)) (p : path) (ch : list tree)
  : outcome (list write) :=
  match find_nth_cmavo_child ch 1 core with
  | None => Abort
  | Some key =>
      match lookup_func tab (text_of key) with
      | TR_OTHER => Ok []
      | f => process_afterthought p ch f
      end
  end.
(* connect.c:141-153 *)
Definition jek_words := [("ja", TR_A); ("je", TR_E); ("jo", TR_O); ("ju", TR_U); ("je'i", TR_Q)].
(* connect.c:178-190 *)
Definition ek_words := [("a", TR_A); ("e", TR_E); ("o", TR_O); ("u", TR_U); ("ji", TR_Q)].
(* connect.c:215-227 *)
Definition gihek_words := [("gi'a", TR_A); ("gi'e", TR_E); ("gi'o", TR_O); ("gi'u", TR_U); ("gi'i", TR_Q)].
(* connect.c:300-312 *)
Definition guhek_words := [("gu'a", TR_A); ("gu'e", TR_E); ("gu'o", TR_O); ("gu'u", TR_U); ("gu'i", TR_Q)].
(* connect.c:440-452 *)
Definition gek_words := [("ga", TR_A); ("ge", TR_E); ("go", TR_O); ("gu", TR_U); ("ge'i", TR_Q)].

(* find_nth_child(x->parent, 1, GIK) and the assertion that it is there: number
   and children of the gik; the root has no parent *)
Definition middle_gik (parent : option (path * list tree)) : outcome (path * list tree) :=
  match parent with
  | None => UB UB_null
  | Some (pp, pch) =>
      match find_nth_child 0 pch 1 "GIK" with
      | None => Abort
      | Some j =>
          match nth_error pch j with
          | Some (NT _ gch) => Ok (pp ++ [j], gch)
          | _ => Abort
          end
      end
  end.

(* connect.c:244-281 process_forethought *)
Definition process_forethought (parent : option (path * list tree)) (p : path) (ch : list tree)
           (f : truth_function) : outcome (list write) :=
  do (gik, gch) <- middle_gik parent;
  let se := find_nth_cmavo_child ch 1 T_SE in
  let nai1 := find_nth_cmavo_child ch 1 T_NAI in
  let nai2 := find_nth_cmavo_child gch 1 T_NAI in
  do i <- generate_truth_index (found nai1) (found se) (found nai2) f;
  do s <- truth_text i;
  Ok [(p, Logical CNP_GE s); (gik, Logical CNP_GI s)].

(* connect.c:290-318 process_guhek, and 437-458, the logical part of process_gek *)
Definition process_fore (tab : list (string * truth_function)) (key : node)
           (parent : option (path * list tree)) (p : path) (ch : list tree) : outcome (list write) :=
  match lookup_func tab (text_of key) with
  | TR_OTHER => Ok []
  | f => process_forethought parent p ch f
  end.
Definition process_guhek (parent : option (path * list tree)) (p : path) (ch : list tree)
  : outcome (list write) :=
  match find_nth_cmavo_child ch 1 T_GUhA with
  | None => Abort
  | Some key => process_fore guhek_words key parent p ch
  end.

(* connect.c:329-362 process_joik_gi *)
Definition process_joik_gi (parent : option (path * list tree)) (p : path) (ch : list tree)
  : outcome (list write) :=
  do (mid, mch) <- middle_gik parent;
  match find_nth_child 0 ch 1 "JOIK" with
  | None => Abort
  | Some j =>
      let neg2 := found (find_nth_cmavo_child mch 1 T_NAI) in
      Ok [(p, Other CNP_GE_JOIK (p ++ [j]) false neg2); (mid, Other CNP_GI_JOIK (p ++ [j]) false neg2)]
  end.

(* connect.c:372-406 process_stag_gik *)
Definition process_stag_gik (parent : option (path * list tree)) (p : path) (ch gch : list tree)
  : outcome (list write) :=
  do (mid, mch) <- middle_gik parent;
  match find_nth_child 0 ch 1 "STAG" with
  | None => Abort
  | Some j =>
      let neg1 := found (find_nth_cmavo_child gch 1 T_NAI) in
      let neg2 := found (find_nth_cmavo_child mch 1 T_NAI) in
      Ok [(p, Other CNP_GE_STAG (p ++ [j]) neg1 neg2); (mid, Other CNP_GI_STAG (p ++ [j]) neg1 neg2)]
  end.

(* connect.c:415-461 process_gek *)
Definition process_gek (parent : option (path * list tree)) (p : path) (ch : list tree)
  : outcome (list write) :=
  match find_nth_cmavo_child ch 1 T_GA with
  | Some key => process_fore gek_words key parent p ch
  | None =>
      match find_nth_cmavo_child ch 1 T_GI with
      | Some _ => process_joik_gi parent p ch
      | None =>
          match find_nth_child 0 ch 1 "GIK" with
          | None => Abort
          | Some j =>
              match nth_error ch j with
              | Some (NT _ gch) => process_stag_gik parent p ch gch
              | _ => Abort
              end
          end
      end
  end.

(* connect.c:481-505: the switch of traverse_tree *)
Definition process_node (parent : option (path * list tree)) (p : path) (ty : string) (ch : list tree)
  : outcome (list write) :=
  if String.eqb ty "GIHEK" then process_after T_GIhA gihek_words p ch
  else if String.eqb ty "EK" then process_after T_A ek_words p ch
  else if String.eqb ty "JEK" || String.eqb ty "JEK_OPT_KE" || String.eqb ty "JEK_OPT_KEBO"
       then process_after T_JA jek_words p ch
  else if String.eqb ty "GUHEK" then process_guhek parent p ch
  else if String.eqb ty "GEK" then process_gek parent p ch
  else Ok [].

(* connect.c:470-515 traverse_tree *)
Fixpoint traverse_tree (parent : option (path * list tree)) (p : path) (x : tree)
  : outcome (list write) :=
  match x with
  | Leaf _ => Ok []
  | NT ty ch =>
      do a <- process_node parent p ty ch;
      do b <- (fix go (i : nat) (l : list tree) : outcome (list write) :=
                 match l with
                 | [] => Ok []
                 | c :: l =>
                     do u <- traverse_tree (Some (p, ch)) (p ++ [i]) c;
                     do v <- go (S i) l;
                     Ok (u ++ v)%list
                 end) 0 ch;
      Ok (a ++ b)%list
  end.

(* connect.c:522-525 connectives_processing *)
Definition connectives_processing (top : tree) : outcome (list write) := traverse_tree None [] top.

(* prop_connective(x, NO): the last assignment counts *)
Definition connective_at (ws : list write) (p : path) : option xconnective :=
  match find (fun w => if list_eq_dec Nat.eq_dec (fst w) p then true else false) (rev ws) with
  | Some (_, c) => Some c
  | None => None
  end.
