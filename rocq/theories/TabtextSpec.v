(* What a C compiler reads in the tables written by dfasyn. *)
From Coq Require Import Ascii String List Bool Arith NArith ZArith.
Import ListNotations.
Open Scope string_scope.
Open Scope list_scope.

Definition newline : string := String (ascii_of_nat 10) "".
Definition blank (c : ascii) : bool := Ascii.eqb c " " || Ascii.eqb c (ascii_of_nat 10).
Definition digit (c : ascii) : option Z :=
  let n := N_of_ascii c in if (48 <=? n)%N && (n <=? 57)%N then Some (Z.of_N n - 48)%Z else None.

(* numbers separated by commas: before a number, after its sign, inside it, after it.
   A number that begins with 0 would be octal and is not read *)
Inductive place : Set := before | signed | inside (neg : bool) (v : Z) | after (v : Z).
Definition value (neg : bool) (v : Z) : Z := if neg then (- v)%Z else v.
Fixpoint read (st : place) (s : string) : option (list Z) :=
  match s with
  | "" =>
      match st with before | signed => None | inside neg v => Some [value neg v] | after v => Some [v] end
  | String c s =>
      match st with
      | before =>
          if blank c then read before s
          else if Ascii.eqb c "-" then read signed s
          else match digit c with Some d => read (inside false d) s | None => None end
      | signed => match digit c with Some d => read (inside true d) s | None => None end
      | inside neg v =>
          match digit c with
          | Some d => if (v =? 0)%Z then None else read (inside neg (10 * v + d)) s
          | None =>
              if Ascii.eqb c "," then option_map (cons (value neg v)) (read before s)
              else if blank c then read (after (value neg v)) s else None
          end
      | after v =>
          if Ascii.eqb c "," then option_map (cons v) (read before s)
          else if blank c then read (after v) s else None
      end
  end.
Fixpoint all_blank (s : string) : bool := match s with "" => true | String c s => blank c && all_blank s end.
(* the text between the braces *)
Definition initialiser (s : string) (l : list Z) : Prop :=
  match l with [] => all_blank s = true | _ => read before s = Some l end.
(* the declaration of an array of numbers *)
Definition declares (s ty name : string) (l : list Z) : Prop :=
  exists body, s = ("static " ++ ty ++ " " ++ name ++ "[] = {" ++ body ++ "};" ++ newline ++ newline)%string /\ initialiser body l.

(* the name of a table, with the prefix if there is one *)
Definition table_name (p : option string) (s : string) : string :=
  match p with Some p => (p ++ String "_" s)%string | None => s end.

(* what an array of unsigned char, unsigned short or short keeps of a number; of a
   negative number only that it is negative *)
Definition kept_u8 (z : Z) : N := Z.to_N (z mod 256).
Definition kept_u16 (z : Z) : N := Z.to_N (z mod 65536).
Definition kept_s16 (z : Z) : option N :=
  let y := (z mod 65536)%Z in if (y <? 32768)%Z then Some (Z.to_N y) else None.

(* words separated by commas, without blanks and without comments *)
Fixpoint fields (remark : bool) (cur : string) (s : string) : list string :=
  match s with
  | "" => [cur]
  | String c s1 =>
      if remark then
        match s1 with
        | String d s2 => if Ascii.eqb c "*" && Ascii.eqb d "/" then fields false cur s2 else fields true cur s1
        | "" => [cur]
        end
      else
        match s1 with
        | String d s2 =>
            if Ascii.eqb c "/" && Ascii.eqb d "*" then fields true cur s2
            else if Ascii.eqb c "," then cur :: fields false "" s1
            else if blank c then fields false cur s1
            else fields false (cur ++ String c "") s1
        | "" =>
            if Ascii.eqb c "," then [cur; ""] else if blank c then [cur] else [(cur ++ String c "")%string]
        end
  end.
Definition plain (c : ascii) : bool :=
  negb (blank c) && negb (Ascii.eqb c "/") && negb (Ascii.eqb c ",").
Fixpoint plain_word (s : string) : bool := match s with "" => true | String c s => plain c && plain_word s end.

(* the words of a text of C: letters, digits and _ *)
Definition word_letter (c : ascii) : bool :=
  let n := N_of_ascii c in
  (((48 <=? n) && (n <=? 57)) || ((65 <=? n) && (n <=? 90)) || ((97 <=? n) && (n <=? 122)) || (n =? 95))%N.
Fixpoint words (cur : string) (s : string) : list string :=
  match s with
  | "" => if String.eqb cur "" then [] else [cur]
  | String c s =>
      if word_letter c then words (cur ++ String c "") s
      else if String.eqb cur "" then words "" s else cur :: words "" s
  end.
(* the part up to the first ) and the rest *)
Fixpoint header (s : string) : string * string :=
  match s with
  | "" => ("", "")
  | String c s => if Ascii.eqb c ")" then ("", s) else let (a, b) := header s in (String c a, b)
  end.
(* the words of the language and the variables of the body itself *)
Definition known : list string := ["int"; "if"; "else"; "while"; "break"; "goto"; "return"; "done"; "h"; "l"; "m"; "xm"].
Definition numeral (s : string) : bool := match s with String c _ => match digit c with Some _ => true | None => false end | "" => false end.
(* every name in the body is a parameter or one of the [tables] *)
Definition closed_function (tables : list string) (s : string) : Prop :=
  Forall (fun w => numeral w = true \/ In w (known ++ words "" (fst (header s)) ++ tables)) (words "" (snd (header s))).
Fixpoint all_letters (s : string) : bool := match s with "" => true | String c s => word_letter c && all_letters s end.
