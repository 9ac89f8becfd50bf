(* Specifications for translate.c: English endings, the table of glosses,
   redirections, conversions inside compounds. *)
From Coq Require Import String Ascii List NArith ZArith Bool Arith.
From Verif Require Import Base DictModel TransModel.
Import ListNotations.
Open Scope string_scope.
Open Scope list_scope.

(* ---- endings ---- *)

Definition letter_in (c : ascii) (s : string) : Prop := In c (list_ascii_of_string s).
Definition one (c : ascii) : string := String c "".

(* how a single word takes each ending *)
Record plural_rule (f : string -> string) : Prop := {
  pl_es : forall p s, In s ["s"; "z"; "x"; "ch"] -> f (p ++ s)%string = (p ++ s ++ "(es)")%string;
  pl_ies : forall p c, letter_in c "bcdfghjklmnpqrstvwxz" -> f (p ++ one c ++ "y")%string = (p ++ one c ++ "y(ies)")%string;
  pl_s : forall x, (forall p s, In s ["s"; "z"; "x"; "ch"] -> x <> (p ++ s)%string) ->
    (forall p c, letter_in c "bcdfghjklmnpqrstvwxz" -> x <> (p ++ one c ++ "y")%string) -> f x = (x ++ "(s)")%string
}.
Record er_rule (f : string -> string) : Prop := {
  er_e : forall p, f (p ++ "e")%string = (p ++ "e-r(s)")%string;
  er_other : forall x, (forall p, x <> (p ++ "e")%string) -> f x = (x ++ "-er(s)")%string
}.
Record ing_rule (f : string -> string) : Prop := {
  ing_e : forall p c, ~ letter_in c "aeiou" -> f (p ++ one c ++ "e")%string = (p ++ one c ++ "-ing")%string;
  ing_other : forall x, (forall p c, ~ letter_in c "aeiou" -> x <> (p ++ one c ++ "e")%string) -> f x = (x ++ "-ing")%string
}.

(* a star at the end of a word: before a blank, a slash or the end *)
Definition word_end (r : string) : Prop :=
  match r with "" => True | String c _ => isspace c = true \/ c = "/"%char end.
Definition starless (s : string) : Prop := ~ letter_in "*" s.

(* the starred words take the ending, the star goes; [glue] may put something in
   between *)
Inductive ending (word glue : string -> string) : string -> string -> Prop :=
| en_plain x : (forall h r, x = (h ++ "*" ++ r)%string -> starless h -> ~ word_end r) -> ending word glue x (word x)
| en_last h r : starless h -> word_end r -> starless r ->
    ending word glue (h ++ "*" ++ r)%string (word h ++ glue r ++ r)%string
| en_more h r y : starless h -> word_end r -> ~ starless r -> ending word glue r y ->
    ending word glue (h ++ "*" ++ r)%string (word h ++ glue r ++ y)%string.
Definition no_glue (r : string) : string := "".
(* "of" unless what follows begins with a preposition *)
Definition begins_prep (r : string) : Prop :=
  exists b w t, r = (b ++ w ++ t)%string /\ Forall (fun c => isspace c = true) (list_ascii_of_string b) /\
    In w ["in"; "at"; "with"; "through"].
Definition of_glue (g : string -> string) : Prop :=
  forall r, (begins_prep r -> g r = "") /\ (~ begins_prep r -> g r = " of").

(* ---- the table in the comment translate.c:224-240 ---- *)
Inductive wform : Set := F_plain | F_plural | F_er | F_ing.
Definition table (class : ascii) (ctx : tctx) : option (string * wform * string) :=
  if Ascii.eqb class "D" || Ascii.eqb class "E" then
    Some match ctx with TCX_NOUN => ("", F_plural, "") | TCX_VERB => ("being ", F_plural, "")
         | TCX_QUAL => ("", F_plain, "-ish") | TCX_TAG => ("", F_plural, "") end
  else if Ascii.eqb class "S" then
    Some match ctx with TCX_NOUN => ("", F_plain, "") | TCX_VERB => ("being ", F_plain, "")
         | TCX_QUAL => ("", F_plain, "-ish") | TCX_TAG => ("", F_plain, "") end
  else if Ascii.eqb class "A" then
    Some match ctx with TCX_NOUN | TCX_TAG => ("", F_er, "") | _ => ("", F_ing, "") end
  else if Ascii.eqb class "P" then
    Some match ctx with TCX_NOUN | TCX_TAG => ("", F_plain, " thing(s)") | TCX_VERB => ("being ", F_plain, "")
         | TCX_QUAL => ("", F_plain, "") end
  else if Ascii.eqb class "R" then
    Some match ctx with TCX_NOUN | TCX_TAG => ("thing(s) ", F_plain, "") | TCX_VERB => ("being ", F_plain, "")
         | TCX_QUAL => ("", F_plain, "") end
  else if Ascii.eqb class "I" then
    Some match ctx with TCX_NOUN | TCX_TAG => ("thing(s) ", F_ing, "") | _ => ("", F_ing, "") end
  else None.
(* note (6): classes whose verb and tag forms use the noun form if there is one *)
Definition uses_noun (class : ascii) (ctx : tctx) : bool :=
  (Ascii.eqb class "D" || Ascii.eqb class "E" || Ascii.eqb class "S") &&
  match ctx with TCX_VERB | TCX_TAG => true | _ => false end.
(* the text in the given form: the ending goes to the starred words, or to the whole if
   none is starred *)
Definition inflect (f : wform) (x : string) (y : string) : Prop :=
  match f with
  | F_plain => y = x
  | F_plural => exists r, plural_rule r /\ ending r no_glue x y
  | F_er => exists r g, er_rule r /\ of_glue g /\ ending r g x y
  | F_ing => exists r, ing_rule r /\ ending r no_glue x y
  end.
(* the stars matter to the inflected forms only *)
Definition star_ok (t : option (string * wform * string)) (x : string) : Prop :=
  match t with Some (_, F_plain, _) => starless x | _ => True end.

(* ---- redirections ---- *)
Definition state : Type := string * Z * tctx.
(* place 0 asks for the verb form of place 1 *)
Definition asked (s : state) : state :=
  let '(w, p, c) := s in if (p =? 0)%Z then (w, 1%Z, TCX_VERB) else s.
(* the entry used: the one for the context, or else the one for the place *)
Definition entry_for (dict : string -> option string) (s : state) : option string :=
  let '(w, p, c) := asked s in
  match dict (w ++ zdec p ++ ctx_letter c)%string with
  | Some t => Some t
  | None => dict (w ++ zdec p)%string
  end.
Definition hop (dict : string -> option string) (s s' : state) : Prop :=
  exists w d tail, entry_for dict s = Some ("@" ++ w ++ String d tail)%string /\
    Forall (fun a => isalpha a = true) (list_ascii_of_string w) /\ isdigit d = true /\
    s' = (w, (Z.of_N (N_of_ascii d) - 48)%Z, snd (asked s)).
Inductive hops (dict : string -> option string) : nat -> state -> state -> Prop :=
| hp_none s : hops dict 0 s s
| hp_one n s s' s'' : hop dict s s' -> hops dict n s' s'' -> hops dict (S n) s s''.
Definition cyclic (dict : string -> option string) (s : state) : Prop :=
  exists n m s', hops dict n s s' /\ hops dict (S m) s' s'.

(* ---- compounds ---- *)
(* place i of "se/te/ve/xe .. word" as a place of the word: the conversion written
   first is applied last *)
Definition swap (k i : Z) : Z := if (i =? 1)%Z then k else if (i =? k)%Z then 1%Z else i.
Definition conv_number (c : string) : option Z :=
  if String.eqb c "se" then Some 2%Z else if String.eqb c "te" then Some 3%Z
  else if String.eqb c "ve" then Some 4%Z else if String.eqb c "xe" then Some 5%Z else None.
Fixpoint converted (cs : list string) (i : Z) : Z :=
  match cs with
  | [] => i
  | c :: cs => converted cs (match conv_number c with Some k => swap k i | None => i end)
  end.
(* a part of a compound: conversions and a word *)
Definition part : Type := list string * string.
Definition good_part (p : part) : Prop :=
  Forall (fun c => conv_number c <> None) (fst p) /\ conv_number (snd p) = None /\
  ~ letter_in "+" (snd p) /\ snd p <> "" /\ String.length (snd p) <= 5.
Definition spelled (ps : list part) : string :=
  String.concat "+" (flat_map (fun p => fst p ++ [snd p]) ps).
(* the glosses of the parts: all but the last as qualifiers of their first place, the
   last as a noun for the place asked for, each through its conversions *)
Definition glosses_in (use : tctx) (g : string -> Z -> tctx -> outcome string) (ps : list part) (place : Z) (gs : list string) : Prop :=
  exists front last gf gl, ps = front ++ [last] /\ gs = gf ++ [gl] /\
    Forall2 (fun p x => g (snd p) (converted (fst p) 1) TCX_QUAL = Ok x) front gf /\
    g (snd last) (converted (fst last) place) use = Ok gl.
Definition glosses := glosses_in TCX_NOUN.
(* the number of parts of a word, conversions counted *)
Definition parts_of (w : string) : nat :=
  match canon w with
  | Ok (Some c) => S (List.length (filter (Ascii.eqb "+") (list_ascii_of_string c)))
  | _ => 1
  end.

(* ---- patterns ---- *)
(* the patterns tried for a compound, in order: strongest precedence first, and for
   each precedence the last part before the first; a pattern is found under its key
   with the letter of the use, or else under the key alone; the rest of the compound
   is what %, or a redirection, speaks of *)
Definition patterns_for (front : list part) (first last : part) (back : list part) (place : Z) : list (string * string) :=
  flat_map (fun prec =>
    [(("*" ++ prec ++ "+" ++ snd last ++ zdec (converted (fst last) place))%string, spelled front);
     (("*" ++ prec ++ spelled [first] ++ "+" ++ zdec (converted (fst first) place))%string, spelled back)])
    ["5"; "4"; "3"; "2"; "1"; "0"].
Definition absent (dict : string -> option string) (ctx : tctx) (key : string) : Prop :=
  dict (key ++ ctx_letter ctx)%string = None /\ dict key = None.
Definition use_of (c : ascii) : tctx :=
  if Ascii.eqb c "v" then TCX_VERB else if Ascii.eqb c "q" then TCX_QUAL else if Ascii.eqb c "t" then TCX_TAG else TCX_NOUN.
(* %pc stands for the gloss of the rest, place p, use c *)
Inductive expand (g : Z -> tctx -> outcome string) : string -> string -> Prop :=
| ex_end : expand g "" ""
| ex_char c r s : c <> "%"%char -> expand g r s -> expand g (String c r) (String c s)
| ex_part d c r t s : g (Z.of_N (N_of_ascii d) - 48)%Z (use_of c) = Ok t -> expand g r s ->
    expand g (String "%" (String d (String c r))) (t ++ s)%string.
(* a compound of two parts or more that is looked up by patterns: the dictionary does
   not have it; [front] and [last], [first] and [back] are the two ways to divide it *)
Record by_patterns (dict : string -> option string) (w : string) (front : list part) (first last : part) (back : list part)
    (place : Z) (ctx : tctx) : Prop := {
  bp_word : canon w = Ok (Some (spelled (first :: back)));
  bp_same : first :: back = front ++ [last];
  bp_two : front <> [];
  bp_parts : Forall good_part (first :: back);
  bp_size : List.length (first :: back) <= 32;
  bp_place : (1 <= place <= 5)%Z;
  bp_entry : entry_for dict (w, place, ctx) = None;
  bp_plain : dict w = None
}.
(* the first pattern of the list that the dictionary has *)
Definition chosen (dict : string -> option string) (ctx : tctx) (l : list (string * string)) (key rest : string) : Prop :=
  exists before after, l = before ++ (key, rest) :: after /\ Forall (fun y => absent dict ctx (fst y)) before.

(* ---- words that are not in the dictionary ---- *)
(* nothing under the word, and it is not read as a compound that a pattern is for *)
Inductive unmatched (dict : string -> option string) (w : string) (place : Z) (ctx : tctx) : Prop :=
| um_none : canon w = Ok None -> unmatched dict w place ctx
| um_one c : canon w = Ok (Some c) -> ~ letter_in "+" c -> unmatched dict w place ctx
| um_many front first last back : by_patterns dict w front first last back place ctx ->
    Forall (fun y => absent dict ctx (fst y)) (patterns_for front first last back place) -> unmatched dict w place ctx.
Record unlisted (dict : string -> option string) (w : string) (place : Z) (ctx : tctx) : Prop := {
  ul_place : (1 <= place <= 5)%Z;
  ul_entry : entry_for dict (w, place, ctx) = None;
  ul_plain : dict w = None;
  ul_match : unmatched dict w place ctx;
  ul_plus : ~ letter_in "+" w
}.
Definition all_commas (s : string) : Prop := Forall (fun c => c = ","%char) (list_ascii_of_string s).
(* the text without its commas *)
Definition comma_free (s s' : string) : Prop :=
  list_ascii_of_string s' = filter (fun c => negb (Ascii.eqb c ",")) (list_ascii_of_string s).
