(* What the word classifier promises, without the classifier's own tables. *)
From Coq Require Import String Ascii List NArith Bool Arith.
From Verif Require Import Base LujvoSpec MorfModel.
Import ListNotations.
Open Scope list_scope.

(* ---- commas and capitals ---- *)
Definition comma (c : ascii) : bool := Ascii.eqb c ",".
Definition capital (c : ascii) : bool := among "ABCDEFGHIJKLMNOPQRSTUVWXYZ" c.
Definition letters_of (w : list ascii) : list ascii := filter (fun c => negb (comma c)) w.
Definition lower (c : ascii) : ascii := if capital c then ascii_of_nat (nat_of_ascii c + 32) else c.
(* the same word but for commas and capitals *)
Definition same_word (u w : list ascii) : Prop := map lower (letters_of u) = map lower (letters_of w).

(* ---- splitting ---- *)
Fixpoint offsets (n : nat) (ps : list (list ascii)) : list nat :=
  match ps with [] => [] | p :: ps => n :: offsets (n + length p) ps end.
(* the pieces lie one after the other and make up the whole text, except for commas
   before the first; each begins with a letter *)
Definition split_at (w : list ascii) (starts : list nat) (ps : list (list ascii)) : Prop :=
  exists lead, forallb comma lead = true /\ w = lead ++ concat ps /\ starts = offsets (length lead) ps
    /\ Forall (fun p => exists c r, p = c :: r /\ comma c = false) ps.

(* the text taken by itself is one word of that type *)
Definition one_word (cult : bool) (t : morf_type) (p : list ascii) : Prop :=
  exists r, morf_scan cult p = Ok r /\ sc_type r = t /\ sc_starts r = [0%nat].
Definition accepted (t : morf_type) : Prop := t <> MT_BOGUS /\ t <> MT_BAD_UPPERCASE /\ t <> MT_CMENE.

(* ---- the same word written with commas and capitals ---- *)
Definition plain (w : list ascii) : list ascii := map lower (letters_of w).
(* the places of the letters in the written word *)
Fixpoint places (p : nat) (w : list ascii) : list nat :=
  match w with [] => [] | c :: w => if comma c then places (S p) w else p :: places (S p) w end.
Definition at_letter (w : list ascii) (k : nat) : nat := nth k (places 0 w) 0%nat.
(* the answer for the written word, from the one for its plain letters *)
Definition same_answer (w : list ascii) (r' r : scan) : Prop :=
  (sc_type r = sc_type r'
   \/ existsb capital w = true /\ sc_type r = MT_BAD_UPPERCASE /\ sc_type r' <> MT_CMENE)
  /\ sc_starts r = map (at_letter w) (sc_starts r')
  /\ sc_hyph r = option_map (at_letter w) (sc_hyph r')
  /\ match sc_cmene r', sc_cmene r with
     | None, None => True
     | Some i', Some i => is_bad i = is_bad i' /\ can_split i = can_split i'
         /\ ladoi i = option_map (at_letter w) (ladoi i') /\ tail i = option_map (at_letter w) (tail i')
     | _, _ => False
     end.

(* ---- root words ---- *)
Definition gismu_form (l : list ascii) : Prop := form CVCCV l \/ form CCVCV l.

(* ---- names ---- *)
(* the words that may not occur in a name, since a listener would take them for the
   mark of a name: after a vowel, y, or nothing, and before a consonant or ' *)
Definition marks : list (list ascii) := [text "la"; text "lai"; text "doi"].
Definition y (c : ascii) : bool := Ascii.eqb c "y".
Definition open_left (pre : list ascii) : Prop := pre = [] \/ exists q x, pre = q ++ [x] /\ (vow x = true \/ y x = true).
Definition closes (c : ascii) : Prop := vow c = false /\ y c = false.
Definition mark_in (l pre m : list ascii) (c : ascii) (post : list ascii) : Prop :=
  l = pre ++ m ++ c :: post /\ In m marks /\ open_left pre /\ closes c.
(* a mark after a consonant and y, or after y at the beginning: cutting there would
   leave something that is no word *)
Definition after_Cy (pre : list ascii) : Prop :=
  exists q, pre = q ++ ["y"%char] /\ (q = [] \/ exists q' x, q = q' ++ [x] /\ vow x = false /\ y x = false /\ x <> "'"%char).
(* the answer of the check for the word with letters l *)
Definition name_answer (l : list ascii) (i : cmene_info) : Prop :=
  match tail i with
  | Some p =>
      exists pre m c post, mark_in l pre m c post
        /\ (forall pre' m' c' post', mark_in l pre' m' c' post' -> (length (pre ++ m) <= length (pre' ++ m'))%nat)
        /\ is_bad i = true /\ ladoi i = Some (length pre) /\ p = length (pre ++ m)
        /\ (can_split i = false <-> after_Cy pre)
  | None =>
      (forall pre m c post, ~ mark_in l pre m c post) /\ can_split i = false
      /\ (is_bad i = false <-> exists q x, l = q ++ [x] /\ vow x = false /\ y x = false /\ x <> "'"%char)
  end.
(* what may stand in a name: the letters and ', with ' between vowels or y, and no
   vowel or y right after y that follows a consonant or nothing *)
Definition name_letter (c : ascii) : Prop := among "abcdefghijklmnopqrstuvwxyz'" c = true.
Definition name_step (pre : list ascii) (c : ascii) : Prop :=
  (c = "'"%char -> exists q x, pre = q ++ [x] /\ (vow x = true \/ y x = true))
  /\ (forall q, pre = q ++ ["'"%char] -> vow c = true \/ y c = true)
  /\ (after_Cy pre -> vow c = false /\ y c = false).

(* ---- borrowings with a classifier ---- *)
(* the letter between classifier and borrowed part, from its neighbours: r, or n next
   to r, or l next to r and n *)
Definition borrow_hyphen (before after : ascii) : ascii :=
  let near c := Ascii.eqb before c || Ascii.eqb after c in
  if near "r"%char then if near "n"%char then "l"%char else "n"%char else "r"%char.
(* at h the word has such a letter, after a part of one of these kinds that begins at a,
   and before a consonant *)
Definition hyphened (ks : list kind) (w : list ascii) (a h : nat) : Prop :=
  exists front part k before after rest, w = front ++ part ++ [borrow_hyphen before after; after] ++ rest
    /\ In k ks /\ form k part /\ (exists p, part = p ++ [before]) /\ cons after = true
    /\ a = length front /\ h = length (front ++ part).
