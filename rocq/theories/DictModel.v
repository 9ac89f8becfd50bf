(* The dictionary compiler smujajgau.c and the dictionary access dictaccs.c. *)
From Coq Require Import String Ascii List NArith ZArith Bool Arith.
From Verif Require Import Base.
Import ListNotations.
Open Scope string_scope.
Open Scope list_scope.

(* ---------- C strings and ctype ---------- *)

(* strcmp: bytes compared as unsigned char.  A C string is a [string] without
   NUL.  Used at smujajgau.c:191, 234 and dictaccs.c:201 *)
Fixpoint strcmp (a b : string) : comparison :=
  match a, b with
  | EmptyString, EmptyString => Eq
  | EmptyString, String _ _ => Lt
  | String _ _, EmptyString => Gt
  | String x a, String y b =>
      match N.compare (N_of_ascii x) (N_of_ascii y) with Eq => strcmp a b | c => c end
  end.

(* isdigit, isalpha, isspace of the C locale; used at smujajgau.c:441, 476, 481,
   522.  The argument is a plain char; a negative one (a byte above 127) is not
   in any class *)
Definition isdigit (a : ascii) : bool := let n := N_of_ascii a in ((48 <=? n) && (n <=? 57))%N.
Definition isalpha (a : ascii) : bool :=
  let n := N_of_ascii a in (((65 <=? n) && (n <=? 90)) || ((97 <=? n) && (n <=? 122)))%N.
Definition isspace (a : ascii) : bool :=
  let n := N_of_ascii a in ((n =? 32) || ((9 <=? n) && (n <=? 13)))%N.

(* ---------- the transactions ---------- *)

(* smujajgau.c:47-54 Trans, with 38-41 Action *)
Record trans : Type := Trans { erase : bool; key : string; val : string; ord : nat }.

(* smujajgau.c:111-130 add_defn and 138-156 add_deletion before numbering *)
Inductive action : Type := Define (k v : string) | Erase (k : string).
Definition trans_of (a : action) (o : nat) : trans :=
  match a with Define k v => Trans false k v o | Erase k => Trans true k "" o end.

(* smujajgau.c:61-64: links and transord.  The list has the latest first *)
Definition add (a : action) (s : list trans * nat) : list trans * nat :=
  (trans_of a (snd s) :: fst s, S (snd s)).
Definition add_all (l : list action) : list trans * nat := fold_left (fun s a => add a s) l ([], 0).

(* smujajgau.c:162-172 build_array: filled from the back *)
Definition build_array (s : list trans * nat) : list trans := rev (fst s).

(* smujajgau.c:184-205 sort_comparison *)
Definition sort_comparison (a b : trans) : comparison :=
  match strcmp (key a) (key b) with Eq => Nat.compare (ord a) (ord b) | c => c end.

(* smujajgau.c:212-216 sort_array.  The algorithm of qsort is not fixed; here
   insertion.  [sort_any] in DictProofs.v shows that all give the same array *)
Fixpoint insert (t : trans) (l : list trans) : list trans :=
  match l with
  | [] => [t]
  | u :: l => match sort_comparison t u with Gt => u :: insert t l | _ => t :: u :: l end
  end.
Fixpoint sort_array (l : list trans) : list trans :=
  match l with [] => [] | t :: l => insert t (sort_array l) end.

(* smujajgau.c:225-251 rationalise_transactions, on the array from the top down:
   [run] is the inner loop 232-236, the transactions from bot to top - 1 *)
Fixpoint run (k : string) (r : list trans) : list trans * list trans :=
  match r with
  | [] => ([], [])
  | t :: r' =>
      match strcmp (key t) k with
      | Eq => let (a, b) := run k r' in (t :: a, b)
      | _ => ([], r)
      end
  end.
Definition erased (t : trans) : trans := Trans true (key t) (val t) (ord t).
Fixpoint rat (fuel : nat) (r : list trans) : outcome (list trans) :=
  match fuel with
  | O => NoFuel
  | S fuel =>
      match r with
      | [] => Ok []
      | top :: r =>
          let (same, rest) := run (key top) r in
          do done <- rat fuel rest;
          Ok ((if erase top then erased top :: map erased same else top :: map erased same) ++ done)
      end
  end.
Definition rationalise (l : list trans) : outcome (list trans) :=
  do r <- rat (S (List.length l)) (rev l); Ok (rev r).

(* smujajgau.c:257-269 compress_transactions *)
Definition compress (l : list trans) : list trans := filter (fun t => negb (erase t)) l.

(* smujajgau.c:601-607, and what write_database looks at *)
Definition compile (l : list action) : outcome (list (string * string)) :=
  do r <- rationalise (sort_array (build_array (add_all l)));
  Ok (map (fun t => (key t, val t)) (compress r)).

(* ---------- the database file ---------- *)

Notation byte := ascii (only parsing).
Definition nul : byte := ascii_of_N 0.

(* smujajgau.c:280-293 put_long *)
Definition put_long (v : N) : list byte :=
  map (fun k => ascii_of_N (N.land (N.shiftr v k) 255)) [24; 16; 8; 0]%N.
(* smujajgau.c:323-330 put_char; the message on standard error is not modelled *)
Definition put_char (v : N) : byte := ascii_of_N (N.land v 255).

Definition strlen (s : string) : N := N.of_nat (String.length s).
Definition chars (s : string) : list byte := list_ascii_of_string s.

(* smujajgau.c:338-364 write_database: the bytes *)
Definition head_bytes (e : string * string) : list byte := [put_char (strlen (fst e)); put_char (strlen (snd e))].
Definition body_bytes (e : string * string) : list byte := chars (fst e) ++ [nul] ++ chars (snd e) ++ [nul].
Definition write_bytes (d : list (string * string)) : list byte :=
  put_long (N.of_nat (List.length d)) ++ flat_map head_bytes d ++ flat_map body_bytes d.
(* with the histogram of 256 lengths (lines 69-70, 347, 350) *)
Definition write_database (d : list (string * string)) : outcome (list byte) :=
  if existsb (fun e => (256 <=? strlen (fst e)) || (256 <=? strlen (snd e)))%N d then UB UB_bounds
  else Ok (write_bytes d).

(* getc: -1 at the end of the file *)
Definition getc (f : list byte) : Z * list byte :=
  match f with [] => ((-1)%Z, []) | b :: f => (Z.of_N (N_of_ascii b), f) end.

(* smujajgau.c:303-313 and dictaccs.c:58-68 get_long, and the conversion to int
   (lines 386 and 91).  The sum is taken modulo 2^32; for bytes this is the or of
   the shifted values, and four ends of file give -1 as in the code *)
Definition to_int (v : Z) : Z := ((v + 2147483648) mod 4294967296 - 2147483648)%Z.
Definition get_long (f : list byte) : Z * list byte :=
  let (a, f) := getc f in let (b, f) := getc f in let (c, f) := getc f in let (d, f) := getc f in
  (to_int (Z.lor (Z.shiftl a 24) (Z.lor (Z.shiftl b 16) (Z.lor (Z.shiftl c 8) d))), f).

(* smujajgau.c:388-393 and dictaccs.c:95-100: the lengths *)
Fixpoint read_lens (n : nat) (f : list byte) : list (Z * Z) * list byte :=
  match n with
  | O => ([], f)
  | S n =>
      let (k, f) := getc f in let (v, f) := getc f in
      let (l, f) := read_lens n f in ((k, v) :: l, f)
  end.

(* a C string starting here; running off the end of the file is an access out
   of bounds *)
Fixpoint cstr (f : list byte) : outcome string :=
  match f with
  | [] => UB UB_bounds
  | b :: f => if (N_of_ascii b =? 0)%N then Ok "" else do s <- cstr f; Ok (String b s)
  end.

(* smujajgau.c:395-396 fread into key or val and 397-398: len + 1 bytes are read,
   then the byte at len is set to 0.  After a short read the rest of the buffer
   is whatever was there (UB_uninit); a length of -1 writes in front of the
   buffer.  add_defn copies up to the first NUL *)
Definition read_string (len : Z) (f : list byte) : outcome (string * list byte) :=
  if (len <? 0)%Z then UB UB_bounds
  else let n := Z.to_nat len in
       if Nat.leb (S n) (List.length f) then
         do s <- cstr (firstn n f ++ [nul]); Ok (s, skipn (S n) f)
       else UB UB_uninit.
Fixpoint read_strings (l : list (Z * Z)) (f : list byte) : outcome (list action) :=
  match l with
  | [] => Ok []
  | (k, v) :: l =>
      do (ks, f) <- read_string k f;
      do (vs, f) <- read_string v f;
      do r <- read_strings l f;
      Ok (Define ks vs :: r)
  end.
(* smujajgau.c:373-403 read_database: the calls of add_defn *)
Definition read_database (f : list byte) : outcome (list action) :=
  let (n, f) := get_long f in
  let (l, f) := read_lens (Z.to_nat n) f in
  read_strings l f.

(* ---------- dictaccs.c ---------- *)

(* dictaccs.c:77-151 read_database: the mapped file from [offset] on and the
   offsets of key and value of each entry (lines 140-148) *)
Fixpoint offsets (l : list (Z * Z)) (at_ : Z) : list (Z * Z) :=
  match l with
  | [] => []
  | (k, v) :: l => let vo := (at_ + k + 1)%Z in (at_, vo) :: offsets l (vo + v + 1)
  end.
Record dictionary : Type := Dict { base : list byte; entries : list (Z * Z) }.
Definition load (f : list byte) : dictionary :=
  let (n, f) := get_long f in
  let (l, f) := read_lens (Z.to_nat n) f in
  Dict f (offsets l 0).
(* the string behind a pointer *)
Definition at_offset (d : dictionary) (o : Z) : outcome string :=
  if (o <? 0)%Z then UB UB_bounds else cstr (skipn (Z.to_nat o) (base d)).

(* dictaccs.c:197-206: the bisection; [m] as int: the sum must not overflow *)
Fixpoint bisect (fuel : nat) (d : dictionary) (k : string) (l h : Z) : outcome (option string) :=
  match fuel with
  | O => NoFuel
  | S fuel =>
      if (l <? h)%Z then
        if (2147483648 <=? h + l)%Z then UB UB_other
        else
          let m := Z.shiftr (h + l) 1 in
          match nth_error (entries d) (Z.to_nat m) with
          | None => UB UB_bounds
          | Some (ko, vo) =>
              do mk <- at_offset d ko;
              match strcmp k mk with
              | Eq => do v <- at_offset d vo; Ok (Some v)
              | Lt => if (m =? l)%Z then Ok None else bisect fuel d k l m
              | Gt => if (m =? l)%Z then Ok None else bisect fuel d k m h
              end
          end
      else Ok None
  end.
(* dictaccs.c:180-211 dict_lookup on an opened dictionary *)
Definition dict_lookup (d : dictionary) (k : string) : outcome (option string) :=
  bisect (S (List.length (entries d))) d k 0 (Z.of_nat (List.length (entries d))).

(* ---------- the source files ---------- *)

(* smujajgau.c:412-422 preen *)
Definition preen (s : string) : list action :=
  map (fun c => Erase (s ++ c)) ["n"; "v"; "a"; "t"].

(* the character before the terminating NUL; reading src[-1] for the empty string *)
Fixpoint last_char (s : string) : option ascii :=
  match s with
  | EmptyString => None
  | String a s => match s with EmptyString => Some a | _ => last_char s end
  end.
(* smujajgau.c:478-482: the letters at the start *)
Fixpoint alphas (s : string) : string :=
  match s with String a s => if isalpha a then String a (alphas s) else "" | "" => "" end.

(* smujajgau.c:437-503 handle_mapping; [canon] is canon_lujvo (canonluj.c).  The
   unused variable of line 442 and the sizes of the buffers are not modelled *)
Definition handle_mapping (canon : string -> option string) (src dest : string) : outcome (list action) :=
  match last_char src with
  | None => UB UB_bounds
  | Some c =>
      let place := isdigit c in
      let more :=
        match src with
        | String a _ =>
            if isalpha a && Nat.leb 6 (String.length (alphas src)) && place then
              match canon (alphas src) with
              | Some cn => let b := cn ++ String c "" in (preen b ++ [Define b ("@" ++ src)])%list
              | None => []
              end
            else []
        | "" => []
        end in
      Ok ((if place then preen src else []) ++ [Define src dest] ++ more)%list
  end%string.

(* smujajgau.c:519 fgets, on a text without NUL: up to 65535 characters up to and
   with the newline *)
Definition newline : ascii := ascii_of_N 10.
Fixpoint fgets (n : nat) (f : list byte) : list byte * list byte :=
  match n, f with
  | S n, b :: f =>
      if Ascii.eqb b newline then ([b], f)
      else let (l, f') := fgets n f in (b :: l, f')
  | _, _ => ([], f)
  end.
(* smujajgau.c:520: the last character is removed *)
Definition chop (l : list byte) : list byte := removelast l.
(* smujajgau.c:521-530: skipping spaces, blank lines and comments *)
Fixpoint skip_space (l : list byte) : list byte :=
  match l with b :: l' => if isspace b then skip_space l' else l | [] => [] end.
(* smujajgau.c:531-534, 540-542: up to a colon *)
Fixpoint upto_colon (l : list byte) : list byte * list byte :=
  match l with
  | b :: l' => if Ascii.eqb b ":" then ([], l) else let (a, r) := upto_colon l' in (b :: a, r)
  | [] => ([], [])
  end.
Definition str (l : list byte) : string := string_of_list_ascii l.
(* smujajgau.c:519-549: one line *)
Definition do_line (canon : string -> option string) (l : list byte) : outcome (list action) :=
  match skip_space (chop l) with
  | [] => Ok []
  | (b :: _) as p =>
      if Ascii.eqb b "#" || Ascii.eqb b "!" || Ascii.eqb b ";" then Ok []
      else
        let (src, p) := upto_colon p in
        match p with
        | [] => Ok []                       (* the message of line 536 *)
        | _ :: p => let (dest, _) := upto_colon p in handle_mapping canon (str src) (str dest)
        end
  end.
(* smujajgau.c:511-551 do_file *)
Definition LINE : nat := N.to_nat 65535.
Fixpoint do_lines (fuel : nat) (canon : string -> option string) (f : list byte) : outcome (list action) :=
  match fuel with
  | O => NoFuel
  | S fuel =>
      match f with
      | [] => Ok []
      | _ =>
          let (l, f) := fgets LINE f in
          do a <- do_line canon l;
          do r <- do_lines fuel canon f;
          Ok (a ++ r)
      end
  end.
Definition do_file (canon : string -> option string) (f : list byte) : outcome (list action) :=
  do_lines (S (List.length f)) canon f.
Fixpoint do_files (canon : string -> option string) (fs : list (option (list byte))) : outcome (list action) :=
  match fs with
  | [] => Ok []
  | None :: fs => do_files canon fs          (* lines 589-590: cannot be opened *)
  | Some f :: fs => do a <- do_file canon f; do r <- do_files canon fs; Ok (a ++ r)
  end.

(* smujajgau.c:565-625 main: old database if there is one, source files; the new
   database *)
Definition smujajgau (canon : string -> option string) (old : option (list byte)) (fs : list (option (list byte)))
  : outcome (list byte) :=
  do a <- match old with None => Ok [] | Some f => read_database f end;
  do b <- do_files canon fs;
  do d <- compile (a ++ b);
  write_database d.
