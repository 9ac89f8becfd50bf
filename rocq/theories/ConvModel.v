(* conversion.c: conversions (se, te, ve, xe, jai) of selbri and of BAI. *)
From Coq Require Import String List NArith Bool Arith.
From Verif Require Import Base TokData CmavoData TokModel TreeModel.
Import ListNotations.
Open Scope string_scope.
Open Scope list_scope.

(* conversion.c:28-47 lookup_converted_place *)
Definition lookup_converted_place (w : string) : outcome nat :=
  if String.eqb w "se" then Ok 2
  else if String.eqb w "te" then Ok 3
  else if String.eqb w "ve" then Ok 4
  else if String.eqb w "xe" then Ok 5
  else Abort.

(* strip_attitudinal(c), the assertion that the result is of selma'o SE
   (conversion.c:72-73 and 150-151), and lookup_converted_place.  Reading the
   selma'o of something that is no cmavo is undefined. *)
Definition se_place (c : tree) : outcome (path * nat) :=
  do (r, s) <- strip_attitudinal c;
  match s with
  | Leaf x =>
      match dat x with
      | N_CMAVO t _ _ =>
          if tok_eqb t T_SE then do n <- lookup_converted_place (text_of x); Ok (r, n) else Abort
      | _ => UB UB_other
      end
  | NT _ _ => UB UB_other
  end.

(* properties set on nodes: prop_conversion, prop_bai_conversion, prop_dont_gloss *)
Inductive conv_prop : Set := Conv (n : nat) | BaiConv (n : nat) | DontGloss.
Definition cwrite : Type := path * conv_prop.

(* conversion.c:57-105 conv_tag_se_bai *)
Fixpoint conv_tag_se_bai (p : path) (x : tree) : outcome (list cwrite) :=
  match x with
  | Leaf _ => Ok []
  | NT ty ch =>
      if String.eqb ty "SE_BAI" then
        match ch with
        | c1 :: _ :: _ =>
            do (r, n) <- se_place c1;
            Ok [(p ++ [1], BaiConv n); (p ++ 0 :: r, DontGloss)]
        | _ => UB UB_bounds
        end
      else if String.eqb ty "BAI1" then
        match ch with
        | _ :: _ => Ok [(p ++ [0], BaiConv 1)]
        | [] => UB UB_bounds
        end
      else
        (fix go (i : nat) (l : list tree) : outcome (list cwrite) :=
           match l with
           | [] => Ok []
           | c :: l =>
               do u <- conv_tag_se_bai (p ++ [i]) c;
               do v <- go (S i) l;
               Ok (u ++ v)
           end) 0 ch
  end.

(* an ancestor of a node: path, type, children *)
Definition ancestor : Type := path * string * list tree.

(* places[1] and places[p] are exchanged (conversion.c:153-155); places[0] is not used *)
Definition swap1 (p : nat) (pl : list nat) : outcome (list nat) :=
  match nth_error pl 1, nth_error pl p with
  | Some a, Some b =>
      Ok (map (fun k => if Nat.eqb k 1 then b else if Nat.eqb k p then a else nth k pl 0)
            (seq 0 (List.length pl)))
  | _, _ => UB UB_bounds
  end.
(* places[1] = 0 (conversion.c:176) *)
Definition clear1 (pl : list nat) : list nat :=
  match pl with a :: _ :: l => a :: 0 :: l | l => l end.

(* the types at which the scan just goes up (conversion.c:162-171) *)
Definition pass_up : list string :=
  ["TANRU_UNIT_2"; "NAHE_TU2"; "TANRU_UNIT_1"; "TANRU_UNIT"; "SELBRI_6"; "SELBRI_5"; "SELBRI_3";
   "KE_SELBRI_3"; "KE_SELBRI3_TU2"].

(* conversion.c:138-211, the loop of compute_tu2_conv; x is the first of the
   ancestors.  Gives the conversion to be set on apply_to and the SE words that
   are not to be glossed. *)
Fixpoint tu2_loop (anc : list ancestor) (pl : list nat) : outcome (nat * list path) :=
  match anc with
  | [] => UB UB_null
  | (p, ty, ch) :: up =>
      if String.eqb ty "SE_TU2" then
        match ch with
        | [] => Abort
        | c :: _ =>
            do (r, n) <- se_place c;
            do pl <- swap1 n pl;
            do (k, ds) <- tu2_loop up pl;
            Ok (k, (p ++ 0 :: r) :: ds)
        end
      else if existsb (String.eqb ty) pass_up then tu2_loop up pl
      else if String.eqb ty "JAI_TU2" || String.eqb ty "JAI_TAG_TU2" then tu2_loop up (clear1 pl)
      else if String.eqb ty "SELBRI_4" then
        match up with
        | [] => UB UB_null
        | (_, t1, _) :: up' =>
            if String.eqb t1 "SELBRI_3" then
              match up' with
              | [] => UB UB_null
              | (_, t2, _) :: _ =>
                  if String.eqb t2 "SELBRI_3" then Ok (nth 1 pl 0, []) else tu2_loop up pl
              end
            else tu2_loop up pl
        end
      else if String.eqb ty "SELBRI_2" then Ok (nth 1 pl 0, [])
      else Abort
  end.

(* conversion.c:119-213 compute_tu2_conv; [preset] says that apply_to already has
   a conversion (from terms.c) *)
Definition compute_tu2_conv (preset : path -> bool) (anc : list ancestor) (apply_to : path)
  : outcome (list cwrite) :=
  if preset apply_to then Ok []
  else
    do (k, ds) <- tu2_loop anc [0; 1; 2; 3; 4; 5];
    Ok (map (fun d => (d, DontGloss)) ds ++ [(apply_to, Conv k)]).

(* conversion.c:247-253: up to the nearest TANRU_UNIT_2 *)
Fixpoint up_to_tu2 (anc : list ancestor) : outcome (list ancestor) :=
  match anc with
  | [] => UB UB_null
  | (p, ty, ch) :: up => if String.eqb ty "TANRU_UNIT_2" then Ok anc else up_to_tu2 up
  end.

(* conversion.c:225-258 conv_mark_tu2s.  A word inside an AUGMENTED node keeps its
   old parent pointer (tree.c:586-640 does not change it), so AUGMENTED nodes are
   not among the ancestors. *)
Fixpoint conv_mark_tu2s (preset : path -> bool) (anc : list ancestor) (p : path) (x : tree)
  : outcome (list cwrite) :=
  match x with
  | NT ty ch =>
      let anc := if String.eqb ty "AUGMENTED" then anc else (p, ty, ch) :: anc in
      (fix go (i : nat) (l : list tree) : outcome (list cwrite) :=
         match l with
         | [] => Ok []
         | c :: l =>
             do u <- conv_mark_tu2s preset anc (p ++ [i]) c;
             do v <- go (S i) l;
             Ok (u ++ v)
         end) 0 ch
  | Leaf n =>
      match dat n with
      | N_BRIVLA _ _ =>
          match anc with [] => UB UB_null | _ => compute_tu2_conv preset anc p end
      | N_CMAVO s _ _ =>
          if tok_eqb s T_NU then do up <- up_to_tu2 anc; compute_tu2_conv preset up p else Ok []
      | _ => Ok []
      end
  end.
