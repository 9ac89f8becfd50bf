(* What a dictionary means. *)
From Coq Require Import String Ascii List NArith ZArith Bool Arith Sorted Permutation.
From Verif Require Import Base DictModel.
Import ListNotations.
Open Scope string_scope.
Open Scope list_scope.

(* a dictionary: what is known about each key *)
Definition dict : Type := string -> option string.
Definition nothing : dict := fun _ => None.
Definition put (k : string) (v : option string) (d : dict) : dict := fun q => if String.eqb q k then v else d q.

(* the entries read in order: the last one about a key counts *)
Definition happens (d : dict) (a : action) : dict :=
  match a with Define k v => put k (Some v) d | Erase k => put k None d end.
Definition meaning (l : list action) : dict := fold_left happens l nothing.

(* what a list of pairs knows *)
Fixpoint assoc (d : list (string * string)) (k : string) : option string :=
  match d with [] => None | (k', v) :: d => if String.eqb k k' then Some v else assoc d k end.

(* alphabetical order of bytes *)
Inductive before : string -> string -> Prop :=
| be_nil b s : before "" (String b s)
| be_head a b s t : (N_of_ascii a < N_of_ascii b)%N -> before (String a s) (String b t)
| be_tail a s t : before s t -> before (String a s) (String a t).

(* strings that fit a database: shorter than 256, no NUL *)
Definition no_nul (s : string) : Prop := ~ In nul (chars s).
Definition storable (s : string) : Prop := no_nul s /\ (strlen s < 256)%N.
Definition storable_dict (d : list (string * string)) : Prop :=
  Forall (fun e => storable (fst e) /\ storable (snd e)) d /\ (N.of_nat (List.length d) <= 2 ^ 30)%N.

(* ---- source files ---- *)

(* what a line says: nothing, or that a key has a definition *)
Definition comment_mark (a : ascii) : Prop := a = "#"%char \/ a = "!"%char \/ a = ";"%char.
Definition colon : ascii := ":".
Inductive says : list ascii -> option (string * string) -> Prop :=
| says_blank l : Forall (fun a => isspace a = true) l -> says l None
| says_comment sp a l : Forall (fun a => isspace a = true) sp -> comment_mark a -> says (sp ++ a :: l) None
| says_no_colon l : ~ In colon l -> says l None
| says_entry sp k v rest : Forall (fun a => isspace a = true) sp ->
    (forall a k', k = a :: k' -> isspace a = false /\ ~ comment_mark a) ->
    ~ In colon k -> ~ In colon v -> (rest = [] \/ exists r, rest = colon :: r) ->
    says (sp ++ k ++ colon :: v ++ rest) (Some (str k, str v)).

(* what is then known: the definition; the finer entries of a place are gone; and
   the analysed form of a compound redirects to it *)
Definition ends_in_digit (s : string) : bool := match last_char s with Some c => isdigit c | None => false end.
Definition forget_forms (k : string) (d : dict) : dict :=
  put (k ++ "t") None (put (k ++ "a") None (put (k ++ "v") None (put (k ++ "n") None d))).
(* the letters at the start of a key, and the last character *)
Definition stem (k : string) (s : string) : Prop :=
  exists r, k = (s ++ r)%string /\ Forall (fun a => isalpha a = true) (chars s) /\
            match r with String a _ => isalpha a = false | "" => True end.
Inductive learns (canon : string -> option string) (k v : string) (d : dict) : dict -> Prop :=
| learn_plain : ends_in_digit k = false -> learns canon k v d (put k (Some v) d)
| learn_place s : ends_in_digit k = true -> stem k s -> (String.length s < 6 \/ canon s = None) ->
    learns canon k v d (put k (Some v) (forget_forms k d))
| learn_compound s cn p c : ends_in_digit k = true -> stem k s -> 6 <= String.length s -> canon s = Some cn ->
    k = (p ++ String c "")%string ->
    learns canon k v d
      (put (cn ++ String c "") (Some ("@" ++ k)%string)
        (forget_forms (cn ++ String c "") (put k (Some v) (forget_forms k d)))).
Inductive learns_all (canon : string -> option string) : list (option (string * string)) -> dict -> dict -> Prop :=
| la_nil d : learns_all canon [] d d
| la_none l d d' : learns_all canon l d d' -> learns_all canon (None :: l) d d'
| la_some k v l d d1 d2 : learns canon k v d d1 -> learns_all canon l d1 d2 -> learns_all canon (Some (k, v) :: l) d d2.

(* a text: lines each ended by a newline; lines shorter than the line buffer *)
Definition text (ls : list (list ascii)) : list ascii := flat_map (fun l => l ++ [newline]) ls.
Definition short_line (l : list ascii) : Prop := ~ In newline l /\ (N.of_nat (List.length l) < 65535)%N.
