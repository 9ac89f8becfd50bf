(* Independent specifications of the word-grouping passes of lex2.c. *)
From Coq Require Import String List NArith Bool Arith.
From Verif Require Import Base TokData CmavoData TokModel ErasureSpec.
Import ListNotations.
Open Scope string_scope.

(* ---- words as written by the user ---- *)

Definition nai_words (b : bool) : list string := if b then ["nai"] else [].
Definition cai_words (c : option caicode) : list string :=
  match c with
  | None => []
  | Some CC_CAI => ["cai"]
  | Some CC_SAI => ["sai"]
  | Some CC_RUhE => ["ru'e"]
  | Some CC_CUhI => ["cu'i"]
  | Some CC_PEI => ["pei"]
  | Some CC_CAINAI => ["cai"; "nai"]
  | Some CC_SAINAI => ["sai"; "nai"]
  | Some CC_RUhENAI => ["ru'e"; "nai"]
  | Some CC_PEINAI => ["pei"; "nai"]
  end.

(* All the words an item stands for, in text order: the emphasis words attached
   in front, the item itself, the suffixes of an indicator, and the indicators
   attached behind. *)
Fixpoint spell (n : node) : list string :=
  match n with
  | Node d _ _ b g k u =>
      (match b with None => [] | Some b' => spell b' end ++
       match d with
       | N_MARKER _ => []
       | N_GARBAGE w => [w]
       | N_CMAVO _ code _ => [cmavo_word code]
       | N_ZOI form term text => [form; term; text; term]
       | N_ZO t => ["zo"; t]
       | N_LOhU t => ["lo'u"; t; "le'u"]
       | N_ZEI ch _ _ =>
           (fix go (l : list node) : list string :=
              match l with
              | [] => []
              | c :: l' =>
                  match l' with
                  | [] => spell c
                  | _ => spell c ++ "zei" :: go l'
                  end
              end) ch
       | N_BU w => [w; "bu"]
       | N_BRIVLA w _ => [w]
       | N_CMENE w => [w]
       | N_BROKEN_ERASURE _ => [DEFECTIVE_ERASURE]
       end ++
       nai_words g ++ cai_words k ++
       (fix go (l : list node) : list string :=
          match l with [] => [] | c :: l' => spell c ++ go l' end) u)%list
  end.

Definition spell_all (l : list node) : list string := flat_map spell l.

(* A node as the lexer makes it: nothing attached yet *)
Definition bare (n : node) : Prop :=
  bahe n = None /\ neg n = false /\ cai n = None /\ ui n = [].

(* The selma'o stored in a cmavo node is the one listed for its word *)
Definition wf_cmavo (n : node) : Prop :=
  match dat n with
  | N_CMAVO s code _ => cmavo_selmao code = Some s
  | _ => True
  end.

(* the word w, as a cmavo *)
Definition is_word (w : string) (n : node) : Prop :=
  exists s code f, dat n = N_CMAVO s code f /\ cmavo_word code = w.

(* ---- zo ---- *)

(* what zo can quote, and how the quoted word reads *)
Inductive reads : node -> string -> Prop :=
| reads_cmavo n s code f : dat n = N_CMAVO s code f -> reads n (cmavo_word code)
| reads_garbage n w : dat n = N_GARBAGE w -> reads n w
| reads_brivla n w t : dat n = N_BRIVLA w t -> reads n w
| reads_cmene n w : dat n = N_CMENE w -> reads n w
| reads_zoi n a b w : dat n = N_ZOI a b w -> reads n w.

Inductive zo_spec : list node -> list node -> Prop :=
| zs_nil : zo_spec [] []
| zs_word x l r : ~ is_word "zo" x -> zo_spec l r -> zo_spec (x :: l) (x :: r)
| zs_quote x y t l r : is_word "zo" x -> reads y t -> zo_spec l r ->
    zo_spec (x :: y :: l) (set_dat (N_ZO t) x :: r).

(* ---- lo'u .. le'u ---- *)

(* display form of a quoted item *)
Definition shown (n : node) : string :=
  match dat n with
  | N_GARBAGE w => w
  | N_CMAVO _ code _ => cmavo_word code
  | N_BRIVLA w _ => w
  | N_CMENE w => w
  | N_ZOI _ _ t => "zoi+""" ++ t ++ """"
  | N_ZO t => "zo+" ++ t
  | N_ZEI _ _ z => z
  | N_BROKEN_ERASURE _ => DEFECTIVE_ERASURE
  | _ => ""
  end.
Definition showable (n : node) : Prop :=
  match dat n with N_MARKER _ | N_LOhU _ | N_BU _ => False | _ => True end.

Definition spaced (l : list string) : string := String.concat " " l.

Inductive lohu_spec : list node -> list node -> Prop :=
| ls_nil : lohu_spec [] []
| ls_word x l r : ~ cmavo_of T_LOhU x -> lohu_spec l r -> lohu_spec (x :: l) (x :: r)
| ls_quote x q e l r :
    cmavo_of T_LOhU x -> q <> [] -> Forall (fun y => ~ cmavo_of T_LEhU y) q ->
    cmavo_of T_LEhU e -> lohu_spec l r ->
    lohu_spec (x :: q ++ e :: l)%list (set_dat (N_LOhU (spaced (map shown q))) x :: r).

(* ---- bu ---- *)

(* how an item reads inside a letteral *)
Definition letteral_text (n : node) : string :=
  match dat n with
  | N_GARBAGE w => w
  | N_CMAVO _ code _ => cmavo_word code
  | N_BRIVLA w _ => w
  | N_CMENE w => w
  | N_ZOI _ _ t => t
  | N_ZO t => "zo" ++ t
  | N_LOhU t => "lo'u-" ++ t ++ "-le'u"
  | N_ZEI _ _ z => z
  | N_BU w => w ++ ".bu"
  | N_BROKEN_ERASURE _ => DEFECTIVE_ERASURE
  | N_MARKER _ => ""
  end.
Fixpoint dotbu (n : nat) (s : string) : string :=
  match n with O => s | S k => dotbu k s ++ ".bu" end.

(* the item made of x followed by the bu words bs *)
Definition bu_item (x : node) (bs : list node) : node :=
  match bs with
  | [] => x
  | b :: bs' => set_dat (N_BU (dotbu (length bs') (letteral_text x))) (last bs b)
  end.

Inductive bu_spec : list node -> list node -> Prop :=
| bs_nil : bu_spec [] []
| bs_item x bs l r :
    ~ cmavo_of T_BU x -> Forall (cmavo_of T_BU) bs ->
    (forall y l', l = y :: l' -> ~ cmavo_of T_BU y) ->
    bu_spec l r -> bu_spec (x :: bs ++ l)%list (bu_item x bs :: r).

(* ---- indicators ---- *)
Definition indicator (n : node) : Prop :=
  cmavo_of T_UI n \/ cmavo_of T_CAI n \/ cmavo_of T_Y n \/ cmavo_of T_DAhO n \/
  cmavo_of T_FUhE n \/ cmavo_of T_FUhO n.

(* the first word of l, if any, satisfies P *)
Definition head_is (P : node -> Prop) (l : list node) : Prop :=
  match l with [] => True | x :: _ => P x end.

(* ---- zei ---- *)
Definition pairs_flat (ps : list (node * node)) : list node :=
  flat_map (fun p => [fst p; snd p]) ps.

Inductive zei_spec : list node -> list node -> Prop :=
| zes_nil : zei_spec [] []
| zes_word x l r :
    ~ cmavo_of T_ZEI x -> head_is (fun y => ~ cmavo_of T_ZEI y) l ->
    zei_spec l r -> zei_spec (x :: l) (x :: r)
| zes_chain x z o ps l r :
    ~ cmavo_of T_ZEI x -> cmavo_of T_ZEI z -> Forall (fun p => cmavo_of T_ZEI (fst p)) ps ->
    Forall showable (x :: o :: map snd ps) ->
    head_is (fun y => ~ cmavo_of T_ZEI y) l -> zei_spec l r ->
    zei_spec (x :: z :: o :: pairs_flat ps ++ l)%list
      (set_dat (N_ZEI (x :: o :: map snd ps)
                      (String.concat "+" (map shown (x :: o :: map snd ps)))
                      (String.concat " zei " (map shown (x :: o :: map snd ps)))) z :: r).

(* ---- indicators ---- *)
(* The text as an initial run of indicators and then words, each with the
   indicators that follow it. *)
Definition group_flat (g : list (node * list node)) : list node :=
  flat_map (fun p => fst p :: snd p) g.
Definition attach (p : node * list node) : node :=
  match snd p with [] => fst p | is => set_ui is (fst p) end.

(* Conditions under which no word is lost by attaching nai and the intensity words:
   nothing has been attached to a nai or an intensity word, indicators carry no
   suffix yet, and cu'i is not followed by nai *)
Definition suffix_ready (n : node) : Prop :=
  (cmavo_of T_NAI n \/ cmavo_of T_CAI n -> bahe n = None) /\
  neg n = false /\ cai n = None /\ ui n = [].
Fixpoint no_cuhi_nai (l : list node) : Prop :=
  match l with
  | x :: l' => (is_word "cu'i" x -> head_is (fun y => ~ cmavo_of T_NAI y) l') /\ no_cuhi_nai l'
  | [] => True
  end.

(* nai and intensity words swallowed by an indicator *)
Definition opt_list (o : option node) : list node := match o with None => [] | Some n => [n] end.
Definition present (o : option node) : bool := match o with None => false | Some _ => true end.
(* how an intensity word with or without nai is recorded; note that the
   nai after cu'i leaves no trace *)
Definition intensity (w : string) (negated : bool) : option caicode :=
  if String.eqb w "cai" then Some (if negated then CC_CAINAI else CC_CAI)
  else if String.eqb w "sai" then Some (if negated then CC_SAINAI else CC_SAI)
  else if String.eqb w "ru'e" then Some (if negated then CC_RUhENAI else CC_RUhE)
  else if String.eqb w "pei" then Some (if negated then CC_PEINAI else CC_PEI)
  else if String.eqb w "cu'i" then Some CC_CUhI
  else None.

Inductive pair_spec : list node -> list node -> Prop :=
| ps_nil : pair_spec [] []
| ps_word x l r : ~ indicator x -> pair_spec l r -> pair_spec (x :: l) (x :: r)
(* indicator, perhaps nai, no intensity word *)
| ps_plain x on l r :
    indicator x -> Forall (cmavo_of T_NAI) (opt_list on) ->
    (on = None -> head_is (fun y => ~ cmavo_of T_NAI y) l) ->
    head_is (fun y => ~ cmavo_of T_CAI y) l ->
    pair_spec l r ->
    pair_spec (x :: opt_list on ++ l)%list
              ((if present on then set_neg true x else x) :: r)
(* indicator, perhaps nai, intensity word, perhaps nai *)
| ps_cai x on c w k om l r :
    indicator x -> Forall (cmavo_of T_NAI) (opt_list on) ->
    cmavo_of T_CAI c -> is_word w c -> intensity w (present om) = Some k ->
    Forall (cmavo_of T_NAI) (opt_list om) ->
    (om = None -> head_is (fun y => ~ cmavo_of T_NAI y) l) ->
    pair_spec l r ->
    pair_spec (x :: opt_list on ++ c :: opt_list om ++ l)%list
              (set_cai (Some k) (if present on then set_neg true x else x) :: r).
