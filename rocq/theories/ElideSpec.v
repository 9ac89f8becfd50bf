(* What the parser should receive and what should be reported about terminators. *)
From Coq Require Import String List NArith Bool Arith Sorted.
From Verif Require Import Base TokData TokModel StreamModel StreamSpec ElideModel.
Import ListNotations.
Open Scope list_scope.

(* ------------------------------------------------------------------ terminators *)
Definition ordinary_words : list string :=
  ["be'o"; "cu"; "fe'u"; "ge'u"; "kei"; "ke'e"; "ku"; "ku'e"; "ku'o"; "li'u"; "lo'o"; "lu'u"; "me'u"; "nu'u"; "te'u"; "tu'u"; "vau"]%string.
Definition free_words : list string := ["do'u"; "se'u"; "toi"]%string.
Definition quantifier_words : list string := ["boi"; "ve'o"]%string.
Definition one_of (l : list string) (w : string) : bool := existsb (String.eqb w) l.
(* boi or ve'o *)
Definition quantifier_end (r : reply) : bool :=
  match snd r with Ptr x => match dat x with N_CMAVO _ c _ => one_of quantifier_words (cmavo_word c) | _ => false end | _ => false end.
(* a terminator without indicators; those that can have free modifiers, without these *)
Definition omissible (r : reply) : bool :=
  match snd r with
  | Ptr x =>
      match dat x, ui x with
      | N_CMAVO _ c free, [] =>
          (one_of ordinary_words (cmavo_word c) && negb free) || one_of free_words (cmavo_word c) || one_of quantifier_words (cmavo_word c)
      | _, _ => false
      end
  | _ => false
  end.
Definition before_free (r : reply) : bool :=
  match snd r with Ptr x => match dat x with N_CMAVO _ _ free => free | _ => false end | _ => false end.
Definition number_marker (r : reply) : bool :=
  match snd r with
  | Ptr x => match dat x with
             | N_MARKER t => existsb (tok_eqb t) [T_PRIVATE_START_TENSE; T_PRIVATE_NUMBER_ROI; T_PRIVATE_NUMBER_MAI; T_PRIVATE_NUMBER_MOI]
             | _ => false
             end
  | _ => false
  end.
Definition word_of (r : reply) : string :=
  match snd r with Ptr x => match dat x with N_CMAVO _ c _ => cmavo_word c | _ => "" end | _ => ""%string end.

(* ------------------------------------------------------------------ sets of terminators *)
(* [X k j]: word k would be taken too early, at the place of word j.  The words 0..m-1 are
   the terminators, m is the word after them.  Keeping the terminators in l keeps every
   remaining word in its place: *)
Definition sufficient (X : nat -> nat -> Prop) (m : nat) (l : list nat) : Prop :=
  forall k j, k = m \/ In k l -> j < k -> X k j -> exists i, In i l /\ j <= i < k.
Definition selection (m : nat) (l : list nat) : Prop := StronglySorted lt l /\ Forall (fun i => i < m) l.
Definition minimal (X : nat -> nat -> Prop) (m : nat) (l : list nat) : Prop :=
  sufficient X m l /\ forall l', selection m l' -> incl l' l -> sufficient X m l' -> l' = l.

Fixpoint numbered (i : nat) (l : list (list string)) : list report :=
  match l with [] => [] | w :: l => R_pattern i w :: numbered (S i) l end.
(* what is said about the terminators [words] with hazards X *)
Inductive said (X : nat -> nat -> Prop) (words : list string) : list report -> Prop :=
| s_nothing_to_omit : words = [] -> said X words []
| s_omit : words <> [] -> sufficient X (List.length words) [] -> said X words [R_omit words]
| s_patterns pats :
    words <> [] -> ~ sufficient X (List.length words) [] -> NoDup pats ->
    (forall l, In l pats <-> selection (List.length words) l /\ minimal X (List.length words) l /\ List.length l < List.length words) ->
    said X words ((match pats with [] => [] | _ => [R_banner words] end) ++
                  numbered 1 (map (map (fun i => nth i words ""%string)) pats)).
(* the table of hazards, with -sev *)
Definition table (X : nat -> nat -> Prop) (m : nat) (rows : list (list bool)) : Prop :=
  List.length rows = S m /\ forall k, k <= m -> exists row, nth_error rows k = Some row /\ List.length row = k /\
    forall j, j < k -> (nth_error row j = Some true <-> X k j).

(* ------------------------------------------------------------------ the parser's view *)
(* the stream; the tokens of the present group of terminators given out so far; is the last
   of them not yet shifted; at which places a state was entered, with that state and
   whether to shift; at which places a subscript was completed; was the last token that
   was a group of its own a number or letter *)
Record view : Type := View {
  v_stream : stream; v_given : list reply; v_pending : bool; v_hist : list (nat * nat * bool); v_subs : list nat; v_single : bool }.
Definition view0 : view := View stream0 [] false [] [] false.
(* the group is complete: its last token is not omissible *)
Fixpoint complete (l : list reply) : bool := match l with [] => true | [r] => negb (omissible r) | _ :: l => complete l end.
Definition place (v : view) : nat := if v_pending v then List.length (v_given v) - 1 else List.length (v_given v).

Definition after (ts : list node) (v : view) (e : event) : view :=
  match e with
  | E_lex =>
      let (s, r) := yylex1 ts (v_stream v) in
      if complete (v_given v) then View s [r] true [] [] (if omissible r then v_single v else pa_etc (fst r))
      else View s (v_given v ++ [r]) true (v_hist v) (v_subs v) (v_single v)
  | E_shift s => View (v_stream v) (v_given v) false ((place v, s, true) :: v_hist v) (v_subs v) (v_single v)
  | E_reduce s sub =>
      View (v_stream v) (v_given v) (v_pending v) (if v_pending v then (place v, s, false) :: v_hist v else v_hist v)
           (if sub then place v :: v_subs v else v_subs v) (v_single v)
  | E_advance c =>
      match error_advance ts c (v_stream v) with
      | Ok s => View s (v_given v) (v_pending v) (v_hist v) (v_subs v) (v_single v)
      | _ => v
      end
  end.
(* what a parser does: it shifts a token it has asked for; it does not skip from within a
   group; a subscript is completed after some token, and - the limit of the buffer - not
   after a complete group of 32, 64, ... tokens before the next token is asked for *)
Definition allowed1 (v : view) (e : event) : Prop :=
  match e with
  | E_lex => True
  | E_shift _ => v_pending v = true
  | E_reduce _ sub => sub = true -> v_given v <> [] /\ (v_pending v = true \/ complete (v_given v) = false \/ List.length (v_given v) mod 32 <> 0)
  | E_advance _ => complete (v_given v) = true
  end.
Fixpoint allowed (ts : list node) (v : view) (es : list event) : Prop :=
  match es with [] => True | e :: es => allowed1 v e /\ allowed ts (after ts v e) es end.

Section Reports.
  Variable can_shift : nat -> tok -> bool.
  Variable verbose : bool.

  (* in some state entered at place j the token k could have been shifted; the token after
     cu is no danger to it *)
  Definition hazard (g : list reply) (hist : list (nat * nat * bool)) (k j : nat) : Prop :=
    exists s sh v, In (j, s, sh) hist /\ (option_map fst (nth_error g k) = Some (Some v)) /\ can_shift s v = true /\
      ~ (sh = true /\ k = List.length g - 1 /\ j = k - 1 /\ option_map fst (nth_error g j) = Some (Some T_CU)).
  (* a last boi or ve'o with free modifiers that does not end a subscript must stay: it
     is the word after the terminators then *)
  Definition last_word (g : list reply) (subs : list nat) : nat :=
    let m := List.length g - 1 in
    match m with
    | 0 => 0
    | S i => match nth_error g i with
             | Some r => if quantifier_end r && before_free r && negb (existsb (Nat.eqb m) subs) then i else m
             | None => m
             end
    end.
  (* a number would merge with one before the first boi or ve'o *)
  Definition merges (g : list reply) (single : bool) (m k j : nat) : Prop :=
    k = m /\ j = 0 /\ single = true /\ option_map quantifier_end (nth_error g 0) = Some true /\ option_map number_marker (nth_error g m) = Some true.
  Definition dangers (v : view) (m : nat) (k j : nat) : Prop :=
    hazard (v_given v) (v_hist v) k j \/ merges (v_given v) (v_single v) m k j.

  Definition reports (v : view) (l : list report) : Prop :=
    if complete (v_given v) then
      let m := last_word (v_given v) (v_subs v) in
      let words := map word_of (firstn m (v_given v)) in
      exists h r, l = h ++ r /\ said (dangers v m) words r /\
        if verbose && Nat.ltb 0 m then exists rows, h = [R_hazards words rows] /\ table (dangers v m) m rows else h = []
    else l = [].

  Definition answers (ts : list node) (v : view) (e : event) (a : list answer) : Prop :=
    match e with
    | E_lex => a = [An_token (snd (yylex1 ts (v_stream v)))]
    | E_shift _ => exists l, a = [An_report l] /\ reports v l
    | _ => a = []
    end.
  Fixpoint follows (ts : list node) (v : view) (es : list event) (l : list answer) : Prop :=
    match es with
    | [] => l = []
    | e :: es => exists a l', l = a ++ l' /\ answers ts v e a /\ follows ts (after ts v e) es l'
    end.
End Reports.

(* the tokens in the answers, and the requests that reach the stream without a buffer *)
Fixpoint tokens_in (l : list answer) : list reply :=
  match l with [] => [] | An_token r :: l => r :: tokens_in l | _ :: l => tokens_in l end.
Fixpoint requests (es : list event) : list request :=
  match es with [] => [] | E_lex :: es => Lex :: requests es | E_advance c :: es => Advance c :: requests es | _ :: es => requests es end.
