(* translate.c: the glosses.
   Strings are values: the fixed buffers of 65536 bytes, the ring of 64 buffers
   behind GETBUF (translate.c:24-26) and the static result buffers are not modelled
   (a gloss is assumed not to be overwritten while it is used, and to be shorter
   than a buffer).  The messages about defects of the dictionary on stderr are
   left out.  dict_lookup is a parameter; so are canon_lujvo and morf_scan, whose
   models are put in at the end. *)
From Coq Require Import String Ascii List NArith ZArith Bool Arith.
From Verif Require Import Base DictModel.
From Verif Require LujvoModel MorfModel.
Import ListNotations.
Open Scope string_scope.
Open Scope list_scope.

(* functions.h:131-136 TransContext *)
Inductive tctx : Set := TCX_NOUN | TCX_VERB | TCX_QUAL | TCX_TAG.

(* strchr(s, c) <> NULL for a character other than NUL *)
Fixpoint has (c : ascii) (s : string) : bool :=
  match s with "" => false | String d s => Ascii.eqb c d || has c s end.
(* strchr: the text in front of the first c and the text behind it *)
Fixpoint cut (c : ascii) (s : string) : option (string * string) :=
  match s with
  | "" => None
  | String d s =>
      if Ascii.eqb c d then Some ("", s)
      else match cut c s with Some (a, b) => Some (String d a, b) | None => None end
  end.
(* while (isspace( *y )) y++ *)
Fixpoint skip_blank (s : string) : string :=
  match s with String c r => if isspace c then skip_blank r else s | "" => "" end.

(* translate.c:269-270 *)
Definition consonants : string := "bcdfghjklmnpqrstvwxz".
Definition vowels : string := "aeiou".

(* translate.c:272-287 starts_with_preposition *)
Definition starts_with_preposition (x : string) : bool :=
  let y := skip_blank x in
  prefix "in" y || prefix "at" y || prefix "with" y || prefix "through" y.

(* translate.c:288-306 basic_trans *)
Fixpoint basic_trans (x : string) : string :=
  match x with
  | "" => ""
  | String c r =>
      if Ascii.eqb c "*" && match r with String d _ => isspace d | "" => false end
      then basic_trans r else String c (basic_trans r)
  end.

(* translate.c:307-311 is_ok_after_star, for the character behind the star *)
Definition is_ok_after_star (r : string) : bool :=
  match r with "" => true | String c _ => isspace c || Ascii.eqb c "/" end.

(* x[n-1] and x[n-2] *)
Fixpoint last2 (p q : option ascii) (s : string) : option ascii * option ascii :=
  match s with "" => (q, p) | String c s => last2 q (Some c) s end.
Definition ends (x : string) : option ascii * option ascii := last2 None None x.

(* translate.c:337-352: the ending of a single word *)
Definition plural_word (x : string) : string :=
  match ends x with
  | (Some a, b) =>
      if Ascii.eqb a "s" || Ascii.eqb a "z" || Ascii.eqb a "x" then x ++ "(es)"
      else match b with
           | Some b =>
               if Ascii.eqb a "h" && Ascii.eqb b "c" then x ++ "(es)"
               else if Ascii.eqb a "y" && has b consonants then x ++ "(ies)"
               else x ++ "(s)"
           | None => x ++ "(s)"
           end
  | (None, _) => x ++ "(s)"
  end%string.
(* translate.c:379-386 *)
Definition er_word (x : string) : string :=
  match ends x with
  | (Some a, _) => if Ascii.eqb a "e" then x ++ "-r(s)" else x ++ "-er(s)"
  | _ => x ++ "-er(s)"
  end%string.
(* the first n-1 characters *)
Fixpoint drop_last (s : string) : string :=
  match s with "" => "" | String c "" => "" | String c s => String c (drop_last s) end.
(* translate.c:413-424 *)
Definition ing_word (x : string) : string :=
  match ends x with
  | (Some a, Some b) => if Ascii.eqb a "e" && negb (has b vowels) then drop_last x ++ "-ing" else x ++ "-ing"
  | _ => x ++ "-ing"
  end%string.

(* translate.c:318-336, 361-378, 395-412: the part in front of the star gets the
   ending; the rest is treated the same way if it has a star *)
Fixpoint starred (f : nat) (word : string -> string) (glue : string -> string) (x : string) : outcome string :=
  match f with
  | O => NoFuel
  | S f =>
      match cut "*" x with
      | Some (h, p) =>
          if is_ok_after_star p then
            if has "*" p then do r <- starred f word glue p; Ok (word h ++ glue p ++ r)%string
            else Ok (word h ++ glue p ++ p)%string
          else Ok (word x)
      | None => Ok (word x)
      end
  end.
(* translate.c:312-354 make_plural *)
Definition make_plural (x : string) : outcome string := starred (S (String.length x)) plural_word (fun _ => "") x.
(* translate.c:355-388 append_er *)
Definition append_er (x : string) : outcome string :=
  starred (S (String.length x)) er_word (fun p => if starts_with_preposition p then "" else " of") x.
(* translate.c:389-426 append_ing *)
Definition append_ing (x : string) : outcome string := starred (S (String.length x)) ing_word (fun _ => "") x.

(* translate.c:504-703 fix_trans_in_context; None is NULL.  [w1n] is "" when there is
   no noun form.  For an empty gloss trans[1] is whatever the buffer held before. *)
Definition fix_trans_in_context (trans : string) (ctx : tctx) (w1n : string) : outcome (option string) :=
  let ok (s : string) : outcome (option string) := Ok (Some s) in
  let noun_or (s : outcome string) : outcome string := if String.eqb w1n "" then s else Ok w1n in
  match trans with
  | "" => UB UB_uninit
  | String k (String ";" w1) =>
      if Ascii.eqb k "D" || Ascii.eqb k "E" then
        match ctx with
        | TCX_NOUN => do p <- make_plural w1; ok p
        | TCX_VERB => do p <- noun_or (make_plural w1); ok ("being " ++ p)%string
        | TCX_QUAL => ok (basic_trans w1 ++ "-ish")%string
        | TCX_TAG => do p <- noun_or (make_plural w1); ok p
        end
      else if Ascii.eqb k "S" then
        match ctx with
        | TCX_NOUN => ok (basic_trans w1)
        | TCX_VERB => do p <- noun_or (Ok w1); ok ("being " ++ p)%string
        | TCX_QUAL => ok (w1 ++ "-ish")%string
        | TCX_TAG => do p <- noun_or (Ok w1); ok p
        end
      else if Ascii.eqb k "A" then
        match ctx with
        | TCX_NOUN | TCX_TAG => do p <- append_er w1; ok p
        | TCX_VERB | TCX_QUAL => do p <- append_ing w1; ok p
        end
      else if Ascii.eqb k "P" then
        match ctx with
        | TCX_NOUN | TCX_TAG => ok (w1 ++ " thing(s)")%string
        | TCX_VERB => ok ("being " ++ w1)%string
        | TCX_QUAL => ok w1
        end
      else if Ascii.eqb k "R" then
        match ctx with
        | TCX_NOUN | TCX_TAG => ok ("thing(s) " ++ w1)%string
        | TCX_VERB => ok ("being " ++ w1)%string
        | TCX_QUAL => ok w1
        end
      else if Ascii.eqb k "I" then
        do p <- append_ing w1;
        match ctx with
        | TCX_NOUN | TCX_TAG => ok ("thing(s) " ++ p)%string
        | TCX_VERB | TCX_QUAL => ok p
        end
      else Ok None
  | _ => ok trans
  end.

(* ---------- components ---------- *)

(* translate.c:30-35 Component: places is places[1..5] *)
Record component : Type := Comp { start : nat; pure_start : nat; text : string; places : list Z }.

(* translate.c:757-764: the pieces between the + signs with their starting
   positions, left to right; a + at the very beginning belongs to the first piece *)
Fixpoint pieces_from (pos : nat) (at0 : nat) (cur : string) (s : string) : list (nat * string) :=
  match s with
  | "" => [(at0, cur)]
  | String c s =>
      if Ascii.eqb c "+" then (at0, cur) :: pieces_from (S pos) pos "" s
      else pieces_from (S pos) at0 (cur ++ String c "")%string s
  end.
Definition pieces (s : string) : list (nat * string) :=
  match s with
  | "" => []
  | String c r => if Ascii.eqb c "+" then pieces_from 1 0 "" r else pieces_from 0 0 "" s
  end.
(* translate.c:765-769 *)
Definition conversion (q : string) : option nat :=
  if String.eqb q "se" then Some 2 else if String.eqb q "te" then Some 3
  else if String.eqb q "ve" then Some 4 else if String.eqb q "xe" then Some 5 else None.
(* translate.c:771-773: exchange of places[1] and places[k], 2 <= k <= 5 *)
Definition exchange (k : nat) (l : list Z) : list Z :=
  let a := nth 0 l 0%Z in let b := nth (k - 1) l 0%Z in
  match l with
  | [] => []
  | _ :: r => b :: (firstn (k - 2) r ++ a :: skipn (k - 1) r)
  end.
(* translate.c:760-784: the loop from the right; [acc] is comp[0..nc-1] *)
Fixpoint gather_comps (ps : list (nat * string)) (acc : list component) : outcome (list component) :=
  match ps with
  | [] => Ok acc
  | (p, q) :: ps =>
      match conversion q with
      | Some k =>
          match acc with
          | [] => UB UB_uninit
          | Comp _ ps0 t pl :: acc => gather_comps ps (Comp p ps0 t (exchange k pl) :: acc)
          end
      | None =>
          if Nat.leb 32 (List.length acc) then UB UB_bounds            (* comp[32] *)
          else if Nat.leb 6 (String.length q) then UB UB_bounds        (* text[6] *)
          else gather_comps ps (Comp p p q [1; 2; 3; 4; 5]%Z :: acc)
      end
  end.
(* translate.c:742-788 split_into_comps *)
Definition split_into_comps (canon : string) : outcome (list component) := gather_comps (rev (pieces canon)) [].

(* comp[i] *)
Definition comp_at (l : list component) (i : Z) : outcome component :=
  if (i <? 0)%Z || (32 <=? i)%Z then UB UB_bounds
  else match nth_error l (Z.to_nat i) with Some c => Ok c | None => UB UB_uninit end.
(* comp.places[place]: the element 0 is never set *)
Definition place_at (c : component) (place : Z) : outcome Z :=
  if (place <? 0)%Z || (5 <? place)%Z then UB UB_bounds
  else if (place =? 0)%Z then UB UB_uninit
  else Ok (nth (Z.to_nat place - 1) (places c) 0%Z).

(* printf %1d *)
Fixpoint digits (f : nat) (n : N) (acc : string) : string :=
  match f with
  | O => acc
  | S f =>
      let acc := String (ascii_of_N (48 + N.modulo n 10)) acc in
      if (N.div n 10 =? 0)%N then acc else digits f (N.div n 10) acc
  end.
Definition zdec (z : Z) : string :=
  match z with
  | Z0 => "0"
  | Zpos p => digits (S (N.size_nat (Npos p))) (Npos p) ""
  | Zneg p => String "-" (digits (S (N.size_nat (Npos p))) (Npos p) "")
  end.
(* "nvqt"[ctx] *)
Definition ctx_letter (c : tctx) : string :=
  match c with TCX_NOUN => "n" | TCX_VERB => "v" | TCX_QUAL => "q" | TCX_TAG => "t" end.
(* c - '0' *)
Definition digit_value (c : ascii) : Z := Z.of_N (N_of_ascii c) - 48.

(* what morf_scan says of a word, as far as translate.c:143-195 looks at it; the
   number is the position of the hyphen of a stage-3 fu'ivla *)
Inductive wkind : Set :=
| K_NONE        (* MT_BOGUS, MT_BAD_UPPERCASE, MT_CMAVOS *)
| K_OPAQUE      (* MT_GISMU, MT_FUIVLA4 and anything else *)
| K_LUJVO
| K_FUIVLA3 (hyphen : nat)
| K_NAME.

Fixpoint no_commas (s : string) : string :=
  match s with "" => "" | String c s => if Ascii.eqb c "," then no_commas s else String c (no_commas s) end.

Section TRANSLATE.
  (* translate.c:43-58 translate: dict_lookup *)
  Variable dict : string -> option string.
  (* canonluj.c canon_lujvo *)
  Variable canon : string -> outcome (option string).
  (* morf.c morf_scan *)
  Variable kind : string -> outcome wkind.

  (* the recursive calls of adv_translate *)
  Section CALLS.
    Variable adv : string -> Z -> tctx -> outcome string.

    (* translate.c:77-88: the glosses of the components *)
    Fixpoint glue_comps (cs : list component) (place : Z) (last_ctx : tctx) : outcome string :=
      match cs with
      | [] => Ok ""
      | [c] => do x <- place_at c place; adv (text c) x last_ctx
      | c :: cs =>
          do x <- place_at c 1; do t <- adv (text c) x TCX_QUAL;
          do r <- glue_comps cs place last_ctx; Ok (t ++ "-" ++ r)%string
      end.

    (* translate.c:59-93 translate_lujvo *)
    Definition translate_lujvo (w : string) (place : Z) : outcome (option string) :=
      do c <- canon w;
      match c with
      | None => Ok (Some "?")
      | Some c =>
          do cs <- split_into_comps c;
          if Nat.ltb (List.length cs) 2 then Ok None
          else do r <- glue_comps cs place TCX_NOUN; Ok (Some r)
      end.

    (* translate.c:94-117 translate_fuivla_prefix *)
    Definition translate_fuivla_prefix (w : string) (ctx : tctx) : outcome string :=
      do c <- canon w;
      match c with
      | None => UB UB_null                                   (* strcpy(buffer, NULL) *)
      | Some c => do cs <- split_into_comps c; glue_comps cs 1 ctx
      end.

    (* translate.c:177-181: over the hyphen letter and any commas; the tail may not
       be reached in a word that ends with the hyphen *)
    Fixpoint after_hyphen (count : nat) (s : string) : option string :=
      match s with
      | "" => None
      | String c r =>
          if Ascii.eqb c "," then after_hyphen count r
          else match count with O => after_hyphen 1 r | S _ => Some s end
      end.

    (* translate.c:118-198 translate_unknown *)
    Definition translate_unknown (w : string) (place : Z) (ctx : tctx) : outcome (option string) :=
      if has "+" w then translate_lujvo w place
      else do k <- kind w;
           match k with
           | K_NONE => Ok None
           | K_OPAQUE => Ok (Some "?")
           | K_LUJVO => translate_lujvo w place
           | K_FUIVLA3 h =>
               do l <- translate_fuivla_prefix (no_commas (substring 0 h w)) ctx;
               match after_hyphen 0 (substring h (String.length w) w) with
               | None => UB UB_bounds
               | Some p => Ok (Some (l ++ "-[" ++ p ++ "]")%string)
               end
           | K_NAME => Ok (Some "[NAME]")
           end.

    (* translate.c:704-741 subst_base_in_pattern *)
    Fixpoint subst_base_in_pattern (trans : string) (base : string) : outcome string :=
      match trans with
      | "" => Ok ""
      | String "%" (String p (String c r)) =>
          let ctx := if Ascii.eqb c "v" then TCX_VERB else if Ascii.eqb c "q" then TCX_QUAL
                     else if Ascii.eqb c "t" then TCX_TAG else TCX_NOUN in
          do t <- adv base (digit_value p) ctx;
          do s <- subst_base_in_pattern r base; Ok (t ++ s)%string
      | String c r =>
          if Ascii.eqb c "%" then UB UB_bounds                (* runs over the end *)
          else do s <- subst_base_in_pattern r base; Ok (String c s)
      end.

    (* translate.c:789-851 lookup_template_match; None is NULL *)
    Definition lookup_template_match (prec : nat) (suffix : bool) (gather : Z) (orig : string)
        (cs : list component) (place : Z) (ctx : tctx) : outcome (option string) :=
      let n := Z.of_nat (List.length cs) in
      do g <- (if suffix then
                 do c <- comp_at cs (n - gather);
                 do p <- place_at c place;
                 Ok (substring (pure_start c) (String.length orig) orig, substring 0 (start c) orig, p)
               else
                 do c <- comp_at cs gather;
                 do c' <- comp_at cs (gather - 1);
                 do p <- place_at c' place;
                 Ok (substring 0 (start c + 1) orig, substring (start c + 1) (String.length orig) orig, p));
      let '(generic, specific, new_place) := g in
      let key := ("*" ++ zdec (Z.of_nat prec) ++ generic ++ zdec new_place)%string in
      let full := dict (key ++ ctx_letter ctx)%string in
      match (match full with Some t => Some t | None => dict key end) with
      | None => Ok None
      | Some trans =>
          match trans with
          | String "@" r =>
              match r with
              | "" => do t <- adv specific (-48) ctx; Ok (Some t)
              | String d _ => do t <- adv specific (digit_value d) ctx; Ok (Some t)
              end
          | _ =>
              do s <- subst_base_in_pattern trans specific;
              match full with
              | Some _ => Ok (Some s)
              | None => fix_trans_in_context s ctx (match dict (key ++ "n")%string with Some x => x | None => "" end)
              end
          end
      end.

    (* translate.c:896-912: the three loops; each element is one round (precedence,
       suffix or prefix), tried with one and then two components *)
    Fixpoint try_templates (l : list (nat * bool)) (orig : string) (cs : list component) (place : Z) (ctx : tctx)
        : outcome (option string) :=
      match l with
      | [] => Ok None
      | (prec, suffix) :: l =>
          do t <- lookup_template_match prec suffix 1 orig cs place ctx;
          match t with
          | None => try_templates l orig cs place ctx
          | Some t1 =>
              if negb (String.eqb t1 "-") then Ok (Some t1)
              else
                do t <- lookup_template_match prec suffix 2 orig cs place ctx;
                match t with
                | Some t2 => if negb (String.eqb t2 "-") then Ok (Some t2) else try_templates l orig cs place ctx
                | None => try_templates l orig cs place ctx
                end
          end
      end.
    Definition rounds : list (nat * bool) :=
      flat_map (fun p => [(p, true); (p, false)]) [5; 4; 3; 2; 1; 0].

    (* translate.c:852-918 attempt_pattern_match *)
    Definition attempt_pattern_match (w : string) (place : Z) (ctx : tctx) : outcome (option string) :=
      do c <- canon w;
      match c with
      | None => Ok None
      | Some c =>
          if has "+" c then
            do cs <- split_into_comps c;
            match cs with
            | [c0] => do p <- place_at c0 place; do t <- adv (text c0) p ctx; Ok (Some t)
            | _ => try_templates rounds c cs place ctx
            end
          else Ok None
      end.

    (* translate.c:962-982: the target of a redirection; None is the defective entry *)
    Fixpoint redirection (s : string) : string * option Z :=
      match s with
      | "" => ("", None)
      | String c r =>
          if isalpha c then let '(w, p) := redirection r in (String c w, p)
          else ("", if isdigit c then Some (digit_value c) else None)
      end.

    (* translate.c:919-1036 adv_translate; translate_pattern returns NULL at once
       (translate.c:435) *)
    Definition adv_body (w : string) (place : Z) (ctx : tctx) : outcome string :=
      let '(place, ctx) := if (place =? 0)%Z then (1%Z, TCX_VERB) else (place, ctx) in
      let key := (w ++ zdec place)%string in
      match (match dict (key ++ ctx_letter ctx)%string with Some t => Some t | None => dict key end) with
      | Some trans =>
          match trans with
          | String "@" r =>
              match redirection r with
              | (w', Some p) => adv w' p ctx
              | (_, None) => Ok "??"
              end
          | _ =>
              do r <- fix_trans_in_context trans ctx (match dict (key ++ "n")%string with Some x => x | None => "" end);
              match r with Some r => Ok r | None => UB UB_null end     (* strcpy(result, NULL) *)
          end
      | None =>
          match dict w with
          | Some t => Ok (t ++ "??")%string
          | None =>
              do m <- attempt_pattern_match w place ctx;
              match m with
              | Some t => Ok t
              | None =>
                  do u <- translate_unknown w place ctx;
                  match u with Some t => Ok (t ++ "??")%string | None => Ok "??" end
              end
          end
      end.
  End CALLS.

  (* the fuel is the depth of the recursion *)
  Fixpoint adv_translate (fuel : nat) (w : string) (place : Z) (ctx : tctx) : outcome string :=
    match fuel with
    | O => NoFuel
    | S f => adv_body (adv_translate f) w place ctx
    end.
End TRANSLATE.

(* canonluj.c:258-275 canon_lujvo on strings *)
Definition canon (w : string) : outcome (option string) := LujvoModel.canon_lujvo (list_ascii_of_string w).
(* translate.c:145-194: the switch on the answer of morf_scan *)
Definition kind (cult : bool) (w : string) : outcome wkind :=
  do r <- MorfModel.morf_scan cult (list_ascii_of_string w);
  match MorfModel.sc_type r with
  | MorfModel.MT_BOGUS | MorfModel.MT_BAD_UPPERCASE | MorfModel.MT_CMAVOS => Ok K_NONE
  | MorfModel.MT_LUJVO => Ok K_LUJVO
  | MorfModel.MT_FUIVLA3 | MorfModel.MT_FUIVLA3_CVC | MorfModel.MT_FUIVLA3X | MorfModel.MT_FUIVLA3X_CVC =>
      match MorfModel.sc_hyph r with Some h => Ok (K_FUIVLA3 h) | None => UB UB_uninit end
  | MorfModel.MT_CMENE => Ok K_NAME
  | MorfModel.MT_GISMU | MorfModel.MT_FUIVLA4 => Ok K_OPAQUE
  end.
(* the gloss of a word: translate.c:919 adv_translate with everything but the
   dictionary in place *)
Definition gloss (dict : string -> option string) (cult : bool) : nat -> string -> Z -> tctx -> outcome string :=
  adv_translate dict canon (kind cult).
