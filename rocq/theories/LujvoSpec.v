(* What a well-formed lujvo is, written from the published rules (the reference
   grammar, chapter 4) and not from the program. *)
From Coq Require Import String Ascii List NArith ZArith Bool Arith.
From Verif Require Import LujvoData.
Import ListNotations.
Open Scope string_scope.
Open Scope list_scope.

Definition text (s : string) : list ascii := list_ascii_of_string s.
Definition among (s : string) (c : ascii) : bool := existsb (Ascii.eqb c) (text s).
Definition letter (r : list ascii) (i : nat) : ascii := nth i r "."%char.

(* ---- letters and clusters ---- *)
Definition cons (c : ascii) : bool := among "bcdfgjklmnprstvxz" c.
Definition vow (c : ascii) : bool := among "aeiou" c.
Definition small (c : ascii) : bool := among "abcdefghijklmnopqrstuvwxyz'" c.
Definition voiced (c : ascii) : bool := among "bdgvjz" c.
Definition unvoiced (c : ascii) : bool := among "ptkfcsx" c.
Definition pair_in (l : list string) (a b : ascii) : bool :=
  existsb (fun s => if list_eq_dec ascii_dec (text s) [a; b] then true else false) l.
Definition permissible (a b : ascii) : bool :=
  cons a && cons b && negb (Ascii.eqb a b)
  && negb (voiced a && unvoiced b) && negb (unvoiced a && voiced b)
  && negb (among "cjsz" a && among "cjsz" b)
  && negb (pair_in ["cx"; "kx"; "xc"; "xk"; "mz"] a b).
Definition initials : list string :=
  ["bl"; "br"; "cf"; "ck"; "cl"; "cm"; "cn"; "cp"; "cr"; "ct"; "dj"; "dr"; "dz"; "fl"; "fr"; "gl"; "gr";
   "jb"; "jd"; "jg"; "jm"; "jv"; "kl"; "kr"; "ml"; "mr"; "pl"; "pr"; "sf"; "sk"; "sl"; "sm"; "sn"; "sp";
   "sr"; "st"; "tc"; "tr"; "ts"; "vl"; "vr"; "xl"; "xr"; "zb"; "zd"; "zg"; "zm"; "zv"].
Definition initial_pair (a b : ascii) : bool := pair_in initials a b.
Definition bad_triple (a b c : ascii) : bool :=
  existsb (fun s => if list_eq_dec ascii_dec (text s) [a; b; c] then true else false) ["ntc"; "nts"; "ndj"; "ndz"].

(* ---- the building blocks ---- *)
Inductive kind : Type := CVC | CCV | CVV | CVhV | CVCC | CCVC | CVCCV | CCVCV.
Inductive form : kind -> list ascii -> Prop :=
| f_cvc a v b : cons a = true -> vow v = true -> cons b = true -> form CVC [a; v; b]
| f_ccv a b v : initial_pair a b = true -> vow v = true -> form CCV [a; b; v]
| f_cvv a v u : cons a = true -> vow v = true -> vow u = true -> form CVV [a; v; u]
| f_cvhv a v u : cons a = true -> vow v = true -> vow u = true -> form CVhV [a; v; "'"%char; u]
| f_cvcc a v b c : cons a = true -> vow v = true -> permissible b c = true -> form CVCC [a; v; b; c]
| f_ccvc a b v c : initial_pair a b = true -> vow v = true -> cons c = true -> form CCVC [a; b; v; c]
| f_cvccv a v b c u : cons a = true -> vow v = true -> permissible b c = true -> vow u = true -> form CVCCV [a; v; b; c; u]
| f_ccvcv a b v c u : initial_pair a b = true -> vow v = true -> cons c = true -> vow u = true -> form CCVCV [a; b; v; c; u].
Definition medial (k : kind) : bool := match k with CVCCV | CCVCV => false | _ => true end.
Definition final (k : kind) : bool := match k with CCV | CVV | CVhV | CVCCV | CCVCV => true | _ => false end.

Notation part := (kind * list ascii)%type.
(* all but the last part may stand before another, the last one may end a word *)
Inductive parts : list part -> Prop :=
| ps_last k p : final k = true -> form k p -> parts [(k, p)]
| ps_more k p l : medial k = true -> form k p -> parts l -> parts ((k, p) :: l).

(* ---- the hyphens ---- *)
(* between any two parts *)
Definition y_between (x y : part) : bool :=
  match fst x with
  | CVCC | CCVC => true
  | CVC =>
      negb (permissible (letter (snd x) 2) (letter (snd y) 0))
      || bad_triple (letter (snd x) 2) (letter (snd y) 0) (letter (snd y) 1)
  | _ => false
  end.
Definition y_if (b : bool) : list ascii := if b then ["y"%char] else [].
Fixpoint joined (l : list part) : list ascii :=
  match l with
  | [] => []
  | [x] => snd x
  | x :: ((y :: _) as l) => snd x ++ y_if (y_between x y) ++ joined l
  end.
(* the letters are those of a lujvo beginning with two consonants (for which there
   is no further rule) *)
Definition on_its_own (t : list ascii) : Prop :=
  exists k p l, (k = CCV \/ k = CCVC) /\ l <> [] /\ parts ((k, p) :: l) /\ t = joined ((k, p) :: l).
Definition hyphen_rn (y : part) : ascii := if Ascii.eqb (letter (snd y) 0) "r" then "n"%char else "r"%char.

(* the word of a list of at least two parts: after the first part come the two
   special rules, that a leading CV must not fall off leaving a lujvo, and that a
   leading CVV must not fall off *)
Inductive lujvo : list part -> list ascii -> Prop :=
| l_plain k p y l : k = CCV \/ k = CCVC \/ k = CVCC -> lujvo ((k, p) :: y :: l) (joined ((k, p) :: y :: l))
| l_cvc_y p y l : y_between (CVC, p) y = true \/ on_its_own (letter p 2 :: joined (y :: l)) ->
    lujvo ((CVC, p) :: y :: l) (p ++ ["y"%char] ++ joined (y :: l))
| l_cvc p y l : y_between (CVC, p) y = false -> ~ on_its_own (letter p 2 :: joined (y :: l)) ->
    lujvo ((CVC, p) :: y :: l) (p ++ joined (y :: l))
| l_cvv_ccv k p q : k = CVV \/ k = CVhV -> lujvo [(k, p); (CCV, q)] (p ++ q)
| l_cvv k p y l : k = CVV \/ k = CVhV -> fst y <> CCV \/ l <> [] ->
    lujvo ((k, p) :: y :: l) (p ++ [hyphen_rn y] ++ joined (y :: l)).

(* ---- what the lujvo checker lets through beyond that (see C23_checker) ---- *)
Inductive parts_lax : list part -> Prop :=
| pl_last k p : final k = true -> form k p -> parts_lax [(k, p)]
| pl_last_pair a b v c u : permissible a b = true -> vow v = true -> cons c = true -> vow u = true ->
    parts_lax [(CCVCV, [a; b; v; c; u])]
| pl_more k p l : medial k = true -> form k p -> parts_lax l -> parts_lax ((k, p) :: l).
Definition on_its_own_lax (t : list ascii) : Prop :=
  exists k p l, (k = CCV \/ k = CCVC) /\ l <> [] /\ parts_lax ((k, p) :: l) /\ t = joined ((k, p) :: l).
Inductive lujvo_lax : list part -> list ascii -> Prop :=
| x_plain k p y l : k = CCV \/ k = CCVC \/ k = CVCC -> lujvo_lax ((k, p) :: y :: l) (joined ((k, p) :: y :: l))
| x_cvc_y p y l : y_between (CVC, p) y = true \/ on_its_own_lax (letter p 2 :: joined (y :: l)) ->
    lujvo_lax ((CVC, p) :: y :: l) (p ++ ["y"%char] ++ joined (y :: l))
| x_cvc p y l : y_between (CVC, p) y = false -> ~ on_its_own_lax (letter p 2 :: joined (y :: l)) ->
    lujvo_lax ((CVC, p) :: y :: l) (p ++ joined (y :: l))
| x_cvv_ccv k p q : k = CVV \/ k = CVhV -> lujvo_lax [(k, p); (CCV, q)] (p ++ q)
| x_cvv k p y l : k = CVV \/ k = CVhV -> fst y = CCV \/ l <> [] ->
    lujvo_lax ((k, p) :: y :: l) (p ++ [hyphen_rn y] ++ joined (y :: l)).

(* ---- the score of a word made of parts ---- *)
Definition value (k : kind) : Z :=
  match k with CVCCV => 1 | CVCC => 2 | CCVCV => 3 | CCVC => 4 | CVC => 5 | CVhV => 6 | CCV => 7 | CVV => 8 end%Z.
Definition how_many (f : ascii -> bool) (t : list ascii) : Z := Z.of_nat (List.length (filter f t)).
Definition sum (l : list Z) : Z := fold_right Z.add 0%Z l.
Definition hyphens (l : list part) (t : list ascii) : Z :=
  (Z.of_nat (List.length t) - sum (map (fun x => Z.of_nat (List.length (snd x))) l))%Z.
Definition published_score (l : list part) (t : list ascii) : Z :=
  (1000 * Z.of_nat (List.length t) - 500 * how_many (Ascii.eqb "'") t + 100 * hyphens l t
   - 10 * sum (map (fun x => value (fst x)) l) - how_many vow t)%Z.

(* ---- all ways of taking one from each list ---- *)
Fixpoint product {A} (r : list (list A)) : list (list A) :=
  match r with
  | [] => [[]]
  | l :: r => flat_map (fun rest => map (fun x => x :: rest) l) (product r)
  end.

(* ---- what the published tables (LujvoData) offer for a component word ---- *)
(* r is a short rafsi of the word g *)
Definition short (g : string) (r : list ascii) : Prop :=
  exists i n si k s, nth_error gismu i = Some g /\ nth_error n_rafsi i = Some n /\ nth_error start_indices i = Some si
    /\ (k < N.to_nat n)%nat /\ nth_error rafsi (N.to_nat si + k) = Some s /\ r = text s.
Definition ends_in_vow (r : list ascii) : Prop := exists r' v, r = r' ++ [v] /\ vow v = true.
Definition brod_series (g : string) : Prop := exists v, text g = text "brod" ++ [v].
(* what may stand for g at the end of a lujvo, and elsewhere *)
Definition last_choice (long : bool) (g : string) (r : list ascii) : Prop :=
  (short g r /\ ends_in_vow r)
  \/ (r = text g /\ List.length r = 5 /\ (long = true \/ forall r, short g r -> ~ ends_in_vow r)).
Definition other_choice (long brod : bool) (g : string) (r : list ascii) : Prop :=
  short g r
  \/ (exists v, text g = r ++ [v]) /\ List.length r = 4 /\ (long = true \/ forall r, ~ short g r)
     /\ (brod = true \/ ~ brod_series g).
Inductive choices (long brod : bool) : list string -> list (list ascii) -> Prop :=
| c_last g r : last_choice long g r -> choices long brod [g] [r]
| c_other g gs r rs : gs <> [] -> other_choice long brod g r -> choices long brod gs rs -> choices long brod (g :: gs) (r :: rs).
(* how a word may be typed: capitals for small letters, h for the apostrophe *)
Definition typed_letter (a : ascii) : ascii :=
  match index 0 (String a "") "ABCDEFGHIJKLMNOPQRSTUVWXYZ" with
  | Some i => nth i (text "abcdefg'ijklmnopqrstuvwxyz") a
  | None => if Ascii.eqb a "h" then "'"%char else a
  end.
Definition typed (a : list ascii) (g : string) : Prop := map typed_letter a = text g.

(* ---- what a part stands for ---- *)
Definition stands_for (r : list ascii) (g : string) : Prop :=
  (List.length r = 5 /\ r = text g) \/ (List.length r <> 5 /\ exists s, In (s, g) r2g /\ r = text s).
