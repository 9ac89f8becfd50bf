(* tree.c and the node constructors of functions.c: building, expanding,
   compressing and printing parse trees. *)
From Coq Require Import String Ascii List NArith Bool Arith DecimalString.
From Verif Require Import Base TokData CmavoData TokModel TreeModel.
Import ListNotations.
Open Scope string_scope.
Open Scope list_scope.

(* functions.c:54-71 compress_children: a NULL child (an elidable that is not
   inserted, an empty constituent) is dropped *)
Fixpoint compress_children (ch : list (option tree)) : list tree :=
  match ch with
  | [] => []
  | Some c :: ch => c :: compress_children ch
  | None :: ch => compress_children ch
  end.

(* functions.c:118-460 new_node_0 .. new_node_11 *)
Definition new_node (ty : string) (ch : list (option tree)) : tree := NT ty (compress_children ch).

(* tree.c:23-42 compress_singletons.  [squash] is the while loop (lines 33-38) and
   the call on line 39 for one child; free_node does not change any live node. *)
Fixpoint squash (child : tree) : tree :=
  match child with
  | Leaf x => Leaf x
  | NT ty ch => match ch with [g] => squash g | _ => NT ty (map squash ch) end
  end.
Definition compress_singletons (x : tree) : tree :=
  match x with Leaf x => Leaf x | NT ty ch => NT ty (map squash ch) end.

(* tree.c:605-611: the chain y->bahe, y->bahe->bahe, .. stored from the back, each
   node of it then without its own link *)
Fixpoint bahe_chain (y : node) : list node :=
  match y with
  | Node _ _ _ (Some z) _ _ _ => bahe_chain z ++ [set_bahe None z]
  | Node _ _ _ None _ _ _ => []
  end.
(* tree.c:573-629 expand_bahe_ui_internal on a terminal.  The link y->bahe itself
   stays (its target has lost its own link); the parent pointer of the new node is
   not modelled. *)
Fixpoint expand_leaf (y : node) : tree :=
  match y with
  | Node d l c b g k u =>
      match b, u with
      | None, [] => Leaf y
      | _, _ =>
          NT "AUGMENTED" (map Leaf (bahe_chain y) ++ Leaf (Node d l c (option_map (set_bahe None) b) g k [])
                          :: map expand_leaf u)
      end
  end.
(* tree.c:566-629 *)
Fixpoint expand_internal (y : tree) : tree :=
  match y with Leaf y => expand_leaf y | NT ty ch => NT ty (map expand_internal ch) end.
(* tree.c:635-646 expand_bahe_ui: a terminal at the top is left alone *)
Definition expand_bahe_ui (top : tree) : tree :=
  match top with Leaf y => Leaf y | NT ty ch => NT ty (map expand_internal ch) end.

(* ---------- the bracketed text ---------- *)

(* what is printed *)
Inductive piece : Type :=
| Open (d : nat) | Close (d : nat)          (* print_open, print_close *)
| Space | Newline
| Text (s : string)                         (* words *)
| Gloss (s : string).                       (* " /../" *)

(* tree.c:225-229 State *)
Inductive bstate : Type := B_OPEN | B_TEXT | B_CLOSE.

(* tree.c:297-303 Conversion *)
Inductive cv : Type := CV_NORMAL | CV_2 | CV_3 | CV_4 | CV_5.

(* tree.c:231-237 SPACE_B4_TEXT; and lines 323-325, 437-439 *)
Definition space_b4 (s : bstate) : list piece := match s with B_OPEN => [] | _ => [Space] end.

(* tree.c:243-254 clear_eols: output and new state; pending_eols becomes 0 *)
Definition clear_eols (pend : nat) (s : bstate) : list piece * bstate :=
  match pend with O => ([], s) | _ => (repeat Newline pend, B_OPEN) end.

(* functions.c:675-684 make_uppercase, ASCII *)
Definition up (a : ascii) : ascii :=
  if Nat.leb 97 (nat_of_ascii a) && Nat.leb (nat_of_ascii a) 122 then ascii_of_nat (nat_of_ascii a - 32) else a.
Fixpoint make_uppercase (s : string) : string :=
  match s with EmptyString => EmptyString | String a s => String (up a) (make_uppercase s) end.

(* tree.c:377-387 *)
Definition cai_suffix (k : option caicode) : string :=
  match k with
  | None => ""
  | Some CC_CAI => " cai" | Some CC_SAI => " sai" | Some CC_RUhE => " ru'e" | Some CC_CUhI => " cu'i"
  | Some CC_PEI => " pei" | Some CC_CAINAI => " cai nai" | Some CC_SAINAI => " sai nai"
  | Some CC_RUhENAI => " ru'e nai" | Some CC_PEINAI => " pei"
  end%string.

(* the tests cmavo_table[code].selmao == UI / CAI *)
Definition code_is (code : N) (t : tok) : bool :=
  match cmavo_selmao code with Some s => tok_eqb s t | None => false end.

(* tree.c:363-395: the text printed for a cmavo.  [elidable] tells whether the
   node has the elidable property (functions.c:96-112) *)
Definition cmavo_text (elidable : bool) (code : N) (g : bool) (k : option caicode) : string :=
  if elidable then make_uppercase (cmavo_word code)
  else cmavo_word code ++
       (if code_is code T_UI then (if g then " nai" else "") ++ cai_suffix k
        else if code_is code T_CAI then (if g then " nai" else "") else "").

(* tree.c:331-349: conversion for the child after an SE *)
Definition child_conv (prev : option tree) : cv :=
  match prev with
  | Some (Leaf x) =>
      match dat x with
      | N_CMAVO s code _ =>
          if tok_eqb s T_SE then
            let w := cmavo_word code in
            if String.eqb w "se" then CV_2 else if String.eqb w "te" then CV_3
            else if String.eqb w "ve" then CV_4 else if String.eqb w "xe" then CV_5 else CV_NORMAL
          else CV_NORMAL
      | _ => CV_NORMAL
      end
  | _ => CV_NORMAL
  end.

(* tree.c:396-433 and 456-505: glosses.  translate and translate_unknown
   (translate.c) are given as functions; the buffer of 65536 bytes is not modelled. *)
Section PRINT.
  Variable elidable : node -> bool.
  Variable eols : node -> nat.
  Variable glossing : bool.
  Variable translate translate_unknown : string -> option string.

  Definition gloss_cmavo (s : tok) (code : N) (conv : cv) : list piece :=
    if glossing then
      if tok_eqb s T_BAI then
        match translate ((match conv with CV_NORMAL => "" | CV_2 => "se" | CV_3 => "te" | CV_4 => "ve" | CV_5 => "xe" end)
                         ++ cmavo_word code)%string with
        | Some e => [Gloss (" /" ++ e ++ "*/")%string] | None => []
        end
      else match translate (cmavo_word code) with Some e => [Gloss (" /" ++ e ++ "/")%string] | None => [] end
    else [].
  Definition gloss_plain (w : string) : list piece :=
    match (match translate w with Some e => Some e | None => translate_unknown w end) with
    | Some e => [Gloss (" /" ++ e ++ "/")%string] | None => []
    end.
  Definition gloss_brivla (w : string) (conv : cv) : list piece :=
    if glossing then
      match conv with
      | CV_NORMAL => gloss_plain w
      | _ =>
          match translate (w ++ (match conv with CV_2 => "2" | CV_3 => "3" | CV_4 => "4" | _ => "5" end))%string with
          | Some e => [Gloss (" /" ++ e ++ "*/")%string]
          | None => gloss_plain w
          end
      end
    else [].

  (* tree.c:356-537: a terminal *)
  Definition print_leaf (x : node) (depth : nat) (s : bstate) (conv : cv) : list piece * bstate :=
    match dat x with
    | N_CMAVO sm code _ =>
        (space_b4 s ++ [Text (cmavo_text (elidable x) code (neg x) (cai x))] ++ gloss_cmavo sm code conv, B_TEXT)
    | N_ZOI _ term text => (space_b4 s ++ [Text ("zoi " ++ term ++ " " ++ text ++ " " ++ term)%string], B_TEXT)
    | N_ZO t => (space_b4 s ++ [Text ("zo " ++ t)%string], B_TEXT)
    | N_ZEI _ _ z => ([Open (S depth); Text z; Newline; Close (S depth)], B_CLOSE)
    | N_LOhU t => (space_b4 s ++ [Open (S depth); Text ("lo'u " ++ t ++ " le'u")%string; Close (S depth)], B_CLOSE)
    | N_BU w => (space_b4 s ++ [Text (w ++ " bu")%string], B_TEXT)
    | N_BRIVLA w _ => (space_b4 s ++ [Text w] ++ gloss_brivla w conv, B_TEXT)
    | N_CMENE w => (space_b4 s ++ [Text w], B_TEXT)
    | _ => ([], s)
    end.

  (* tree.c:310-540 print_bracketed; the results are the output, *state and
     pending_eols *)
  Fixpoint print_bracketed (x : tree) (depth : nat) (s : bstate) (pend : nat) (conv : cv)
    : list piece * bstate * nat :=
    let '(o1, s) := clear_eols pend s in
    match x with
    | Leaf x =>
        let '(o2, s) := print_leaf x depth s conv in
        (o1 ++ o2, s, eols x)
    | NT _ ch =>
        let '(o3, _, pend) :=
          (fix go (prev : option tree) (ch : list tree) (s : bstate) (pend : nat) : list piece * bstate * nat :=
             match ch with
             | [] => ([], s, pend)
             | c :: ch =>
                 let '(a, s, pend) := print_bracketed c (S depth) s pend (child_conv prev) in
                 let '(b, s, pend) := go (Some c) ch s pend in
                 (a ++ b, s, pend)
             end) None ch B_OPEN 0 in
        (o1 ++ space_b4 s ++ [Open depth] ++ o3 ++ [Close depth], B_CLOSE, pend)
    end.

  (* tree.c:547-556 print_bracketed_text *)
  Definition print_bracketed_text (top : tree) : list piece :=
    let '(o, _, _) := print_bracketed top 0 B_OPEN 0 CV_NORMAL in o ++ [Newline].
End PRINT.

(* tree.c:261-291 print_open and print_close: the characters *)
Definition dec (n : nat) : string := NilEmpty.string_of_uint (Nat.to_uint n).
Definition render (p : piece) : string :=
  match p with
  | Open d => match Nat.modulo d 4 with 0 => "(" ++ dec (Nat.div d 4) | 1 => "[" | 2 => "{" | _ => "<" end
  | Close d => match Nat.modulo d 4 with 0 => ")" ++ dec (Nat.div d 4) | 1 => "]" | 2 => "}" | _ => ">" end
  | Space => " "
  | Newline => String (ascii_of_nat 10) ""
  | Text s => s
  | Gloss s => s
  end%string.

(* ---------- the indented tree ---------- *)

(* the lines printed: None stands for a line without show_indent *)
Definition tline : Type := option nat * string.

(* cmavo_table[code].ssm_code named by selmao_names: the name of the selma'o *)
Section TREE.
  Variable elidable : node -> bool.
  Variable selmao_name : N -> string.

  (* tree.c:134-172 *)
  Definition cai_lines (i : nat) (k : option caicode) : list tline :=
    let c w := (Some i, "CMAVO : " ++ w ++ " [CAI]")%string in
    let nai := (Some i, "CMAVO : nai [NAI]") in
    match k with
    | None => []
    | Some CC_CAI => [c "cai"] | Some CC_SAI => [c "sai"] | Some CC_RUhE => [c "ru'e"] | Some CC_CUhI => [c "cu'i"]
    | Some CC_PEI => [c "pei"] | Some CC_CAINAI => [c "cai"; nai] | Some CC_SAINAI => [c "sai"; nai]
    | Some CC_RUhENAI => [c "ru'e"; nai] | Some CC_PEINAI => [c "pei"; nai]
    end.
  (* tree.c:109-213: the terminals *)
  Definition leaf_lines (i : nat) (x : node) : list tline :=
    match dat x with
    | N_MARKER _ => []
    | N_CMAVO _ code _ =>
        if elidable x then [(Some i, "CMAVO : " ++ make_uppercase (cmavo_word code) ++ " [" ++ selmao_name code ++ "]")%string]
        else (Some i, "CMAVO : " ++ cmavo_word code ++ " [" ++ selmao_name code ++ "]")%string ::
             (if code_is code T_UI then
                (if neg x then [(Some i, "CMAVO : nai [NAI]")] else []) ++ cai_lines i (cai x)
              else if code_is code T_CAI then (if neg x then [(None, "CMAVO : nai [NAI]")] else [])
              else [])
    | N_ZOI _ _ t => [(Some i, "ZOI : " ++ t)%string]
    | N_ZO t => [(Some i, "ZO  : " ++ t)%string]
    | N_LOhU t => [(Some i, "LOhU  : " ++ t)%string]
    | N_ZEI _ _ z => [(Some i, "ZEI : " ++ z)%string]
    | N_BU w => [(Some i, "BU : " ++ w)%string]
    | N_BRIVLA w _ => [(Some i, "BRIVLA : " ++ w)%string]
    | N_CMENE w => [(Some i, "CMENE : " ++ w)%string]
    | _ => [(Some i, "OTHER?")]
    end.
  (* tree.c:96-215 print_tree: children first *)
  Fixpoint print_tree (x : tree) (indent : nat) : list tline :=
    match x with
    | Leaf x => leaf_lines indent x
    | NT ty ch => flat_map (fun c => print_tree c (S indent)) ch ++ [(Some indent, ty)]
    end.
End TREE.

(* tree.c:77-89 show_indent *)
Fixpoint show_indent (i : nat) : string :=
  match i with O => "" | S O => "+-" | S i => "| " ++ show_indent i end%string.

(* tree.c:222-226 print_parse_tree: the characters of the listing *)
Definition line_text (l : tline) : string :=
  (match fst l with Some i => show_indent i | None => "" end ++ snd l ++ String (ascii_of_nat 10) "")%string.
Definition print_parse_tree (elidable : node -> bool) (selmao_name : N -> string) (x : tree) : string :=
  String.concat "" (map line_text (print_tree elidable selmao_name x 0)).
