(* What the word glosser is to show. *)
From Coq Require Import String Ascii List NArith ZArith Bool Arith.
From Verif Require Import LujvoSpec.
Import ListNotations.
Open Scope string_scope.
Open Scope list_scope.

(* a dictionary of non-empty glosses that fit the buffers *)
Definition small_entries (dict : list ascii -> option (list ascii)) : Prop :=
  forall w t, dict w = Some t -> t <> [] /\ (N.of_nat (List.length t) < 65536)%N.

(* ---------- cmavo written together ---------- *)

(* a cmavo without y: vowels and apostrophes, after a consonant or with none *)
Definition vowelish (c : ascii) : bool := vow c || Ascii.eqb c "'".
Definition cmavo (u : list ascii) : Prop := exists c v, u = c :: v /\ cons c = true /\ forallb vowelish v = true.
Definition vowel_cmavo (u : list ascii) : Prop := u <> [] /\ forallb vowelish u = true.
(* a run of them: the first may begin with a vowel; it may be written with a stop before it *)
Inductive run (dotted : bool) : list (list ascii) -> list ascii -> Prop :=
| r_run u us : cmavo u \/ vowel_cmavo u -> Forall cmavo us ->
    run dotted (u :: us) ((if dotted then ["."%char] else []) ++ concat (u :: us)).

(* The translation of a run: from the left, each time as many cmavo as there is an entry for,
   or a question mark for one. *)
Inductive shown (look : list ascii -> option (list ascii)) : list (list ascii) -> list (list ascii) -> Prop :=
| sh_none : shown look [] []
| sh_entry us vs t out : us <> [] -> look (concat us) = Some t ->
    (forall us' vs', us' ++ vs' = us ++ vs -> List.length us < List.length us' -> look (concat us') = None) ->
    shown look vs out -> shown look (us ++ vs) (t :: out)
| sh_unknown u vs out :
    (forall us' vs', us' ++ vs' = u :: vs -> us' <> [] -> look (concat us') = None) ->
    shown look vs out -> shown look (u :: vs) (text "?" :: out).
(* with single spaces between *)
Fixpoint spaced (l : list (list ascii)) : list ascii :=
  match l with [] => [] | [x] => x | x :: l => x ++ text " " ++ spaced l end.

(* ---------- compounds ---------- *)

Section COMPOUNDS.
  Variable dict : list ascii -> option (list ascii).
  Definition or_unknown (o : option (list ascii)) : list ascii := match o with Some t => t | None => text "?" end.
  (* the key of a part: a whole word as it is, a rafsi after a percent sign *)
  Definition key (p : list ascii) : list ascii := if Nat.eqb (List.length p) 5 then p else "%"%char :: p.
  Definition conversions : list (string * (nat * ascii)) := [("sel", (2, "2"%char)); ("ter", (3, "3"%char)); ("vel", (4, "4"%char)); ("xel", (5, "5"%char))].
  Definition is_conversion (p : list ascii) : Prop := exists n, In (string_of_list_ascii p, n) conversions.
  (* The parts one by one.  A part before which there is se, te, ve or xe has the entry for that
     place. *)
  Inductive glosses : list part -> list (list ascii) -> Prop :=
  | g_none : glosses [] []
  | g_part k p l gs : ~ is_conversion p -> glosses l gs -> glosses ((k, p) :: l) (or_unknown (dict (key p)) :: gs)
  | g_converted k' c n d k p l t gs : In (string_of_list_ascii c, (n, d)) conversions -> ~ is_conversion p -> dict (key p ++ [d]) = Some t ->
      glosses l gs -> glosses ((k', c) :: (k, p) :: l) (t :: gs).
  Fixpoint dashed (l : list (list ascii)) : list ascii :=
    match l with [] => [] | [x] => x | x :: l => x ++ text "-" ++ dashed l end.

  (* ---------- borrowings ---------- *)
  (* the hyphen after the classifier: r, between others than r; n next to an r; l between r
     and n *)
  Inductive glue : ascii -> ascii -> ascii -> Prop :=
  | gl_r a c : cons a = true -> cons c = true -> a <> "r"%char -> c <> "r"%char -> glue a "r" c
  | gl_n a c : cons a = true -> cons c = true -> a = "r"%char \/ c = "r"%char -> a <> "n"%char -> c <> "n"%char -> glue a "n" c
  | gl_l a c : (a = "r"%char /\ c = "n"%char) \/ (a = "n"%char /\ c = "r"%char) -> glue a "l" c.
  (* a classifier of three or four letters; not with two consonants at the end of which the
     last could be a hyphen itself *)
  Inductive classifier : list ascii -> ascii -> Prop :=
  | cl_cvc a v b : form CVC [a; v; b] -> classifier [a; v; b] b
  | cl_ccvc a b v c : form CCVC [a; b; v; c] -> classifier [a; b; v; c] c
  | cl_cvcc a v b c : form CVCC [a; v; b; c] -> ~ In c ["r"; "n"; "l"]%char -> classifier [a; v; b; c] c.
  Inductive borrowing : list ascii -> list ascii -> list ascii -> Prop :=
  | bo p z h c d rest : classifier p z -> glue z h c -> borrowing p (c :: d :: rest) (p ++ h :: c :: d :: rest).
End COMPOUNDS.

(* ---------- words in a text ---------- *)

Definition lojban_letter (c : ascii) : bool := cons c || vow c || Ascii.eqb c "y" || Ascii.eqb c "'".
Definition word (w : list ascii) : Prop := w <> [] /\ forallb lojban_letter w = true.
Definition ends_in (f : ascii -> bool) (w : list ascii) : Prop := exists v c, w = v ++ [c] /\ f c = true.
(* vowels of a cmavo: one or two, or y; with apostrophes between such *)
Inductive vowels : list ascii -> Prop :=
| v_one a : vow a = true -> vowels [a]
| v_two a b : vow a = true -> vow b = true -> vowels [a; b]
| v_y : vowels ["y"%char].
Inductive nucleus : list ascii -> Prop :=
| n_one v : vowels v -> nucleus v
| n_more v n : vowels v -> nucleus n -> nucleus (v ++ "'"%char :: n).
(* cmavo written together, only the first of which may lack a consonant *)
Definition syllable (u : list ascii) : Prop := exists c n, u = c :: n /\ cons c = true /\ nucleus n.
Definition cmavo_word (w : list ascii) : Prop := exists u us, (syllable u \/ nucleus u) /\ Forall syllable us /\ w = concat (u :: us).
(* CVCy and a consonant: not a cmavo that falls off *)
Definition cvcy (w : list ascii) : Prop := exists a v b c r z, w = a :: v :: b :: "y"%char :: c :: r ++ [z] /\
  cons a = true /\ vow v = true /\ cons b = true /\ cons c = true /\ r <> [] /\ vow z = true.
(* what can come after a word: nothing, a blank, an end of line or a bracket *)
Definition ended (s : list ascii) : Prop := match s with [] => True | c :: _ => among " ()[]" c = true \/ c = "009"%char \/ c = "010"%char \/ c = "013"%char end.

(* ---------- a whole text ---------- *)

Definition brivla_word (w : list ascii) : Prop := word w /\ (exists c r z, w = c :: r ++ [z] /\ cons c = true /\ r <> [] /\ vow z = true) /\ (cvcy w \/ ~ cmavo_word w).
Definition dot (b : bool) : list ascii := if b then ["."%char] else [].
(* cmavo as they may stand in a text: with a stop before them if the first begins with a vowel *)
Definition cmavo_token (dotted : bool) (us : list (list ascii)) : Prop :=
  if dotted then exists n ss, nucleus n /\ Forall syllable ss /\ concat us = concat (n :: ss)
  else cmavo_word (concat us) /\ ~ cvcy (concat us).

Section SHOWN.
  Variable dict : list ascii -> option (list ascii).
  Definition class_of (w : list ascii) : option (list ascii) := dict ("+"%char :: w).
  (* some cmavo from the left are in the dictionary *)
  Definition begins_known (look : list ascii -> option (list ascii)) (us : list (list ascii)) : Prop :=
    exists a b t, us = a ++ b /\ a <> [] /\ look (concat a) = Some t.
  (* a word, its class and its translation *)
  Inductive word_shown : list ascii -> list ascii -> list ascii -> Prop :=
  | ws_name d1 d2 w : word w -> ends_in cons w -> word_shown (dot d1 ++ w ++ dot d2) (text "CMENE") []
  | ws_brivla w t : brivla_word w -> dict w = Some t -> word_shown w (text "BRIVLA") t
  | ws_compound k p l w gs : parts ((k, p) :: l) -> lujvo ((k, p) :: l) w -> ~ is_conversion p -> dict w = None -> glosses dict ((k, p) :: l) gs ->
      word_shown w (text "BRIVLA") (dashed gs)
  | ws_borrowing p rest w : brivla_word w -> borrowing p rest w -> dict w = None -> word_shown w (text "BRIVLA") (or_unknown (dict ("%"%char :: p)) ++ text "-[" ++ rest ++ text "]")
  | ws_cmavo_entry d us w t : run d us w -> cmavo_token d us -> dict (concat us) = Some t -> List.length (concat us) <= 30 ->
      word_shown w (match class_of (concat us) with Some c => c | None => [] end) t
  | ws_cmavo d us w ts cs : run d us w -> cmavo_token d us -> dict (concat us) = None -> List.length (concat us) <= 62 ->
      (d = false -> (exists u us', us = u :: us' /\ cmavo u) \/ begins_known dict us /\ begins_known class_of us) ->
      shown dict us ts -> shown class_of us cs -> word_shown w (spaced cs) (spaced ts).
  (* letters that are no word *)
  Definition no_word (w : list ascii) : Prop := word w /\ ~ cmavo_word w /\ ~ ends_in cons w /\ forall c r z, w = c :: r ++ [z] -> cons c = true -> r <> [] -> vow z = true -> False.

  Inductive item : Type := Word (w : list ascii) | Paragraph | Brackets (ps : list (list ascii)).
  Definition opening (c : ascii) : Prop := c = "("%char \/ c = "["%char.
  Definition closing (c : ascii) : Prop := c = ")"%char \/ c = "]"%char.
  (* brackets and the texts between them, from inside d brackets to the end of the first *)
  Inductive inside : nat -> list (list ascii) -> Prop :=
  | in_last c : closing c -> inside 1 [[c]]
  | in_close c d ps : closing c -> inside (S d) ps -> inside (S (S d)) ([c] :: ps)
  | in_open c d ps : opening c -> inside (S (S d)) ps -> inside (S d) ([c] :: ps)
  | in_text x d c ps : x <> [] -> (forall c, In c x -> ~ opening c /\ ~ closing c) -> opening c \/ closing c -> inside d ([c] :: ps) -> inside d (x :: [c] :: ps).
  Definition blank (c : ascii) : Prop := c = " "%char \/ c = "009"%char.
  Definition before (P : ascii -> Prop) (s : list ascii) : Prop := match s with [] => True | c :: _ => ~ P c end.
  Definition newline : ascii := "010"%char.
  Definition return_ : ascii := "013"%char.
  Inductive laid : list item -> list ascii -> Prop :=
  | l_end : laid [] []
  | l_blank b its s : b <> [] -> Forall blank b -> before blank s -> laid its s -> laid its (b ++ s)
  | l_line its s : before (fun c => c = newline \/ c = return_) s -> laid its s -> laid its (newline :: s)
  | l_paragraph n its s : before (fun c => c = newline \/ c = return_) s -> laid its s -> laid (Paragraph :: its) (repeat newline (S (S n)) ++ s)
  | l_word w its s : ended s -> laid its s -> laid (Word w :: its) (w ++ s)
  | l_brackets c ps its s : opening c -> inside 1 ps -> laid its s -> laid (Brackets ([c] :: ps) :: its) (concat ([c] :: ps) ++ s).
  Inductive item_shown : item -> list ascii -> Prop :=
  | is_word w c t : word_shown w c t -> (N.of_nat (List.length t) < 65536)%N -> (N.of_nat (List.length c) < 65536)%N ->
      item_shown (Word w) (w ++ text " <" ++ c ++ text "> [" ++ t ++ text "] ")
  | is_none w : no_word w -> item_shown (Word w) []
  | is_paragraph : item_shown Paragraph [newline]
  | is_brackets ps : item_shown (Brackets ps) (concat (map (fun p => text "(" ++ p ++ text ") ") ps)).
End SHOWN.
