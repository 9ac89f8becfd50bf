(* Compounds (lujvo): lujvofns.c, jvocuhadju.c, canonluj.c. *)
From Coq Require Import String Ascii List NArith ZArith Bool Arith.
From Verif Require Import Base LujvoData.
Import ListNotations.
Open Scope string_scope.
Open Scope list_scope.

(* a C string is the list of its characters; reading the position of the
   terminator gives NUL.  No modelled read goes further (the lengths are tested
   first everywhere) *)
Notation cword := (list ascii).
Definition NUL : ascii := ascii_of_N 0.
Definition at_ (t : cword) (i : nat) : ascii := nth i t NUL.
Definition w (s : string) : cword := list_ascii_of_string s.
Definition ceq (a b : ascii) : bool := Ascii.eqb a b.

(* ---------- lujvofns.c ---------- *)

(* lujvofns.c:14-21, 61-84: the letter classes *)
Definition attr (c : ascii) (bit : N) : bool := N.testbit (nth (N.to_nat (N_of_ascii c)) attr_table 0%N) bit.
Definition is_consonant (c : ascii) : bool := attr c 0.
Definition is_vowel (c : ascii) : bool := attr c 1.
Definition is_sibilant (c : ascii) : bool := attr c 4.
Definition is_voiced (c : ascii) : bool := attr c 5.
Definition is_unvoiced (c : ascii) : bool := attr c 6.

Definition long (n : nat) (t : cword) : bool := Nat.leb n (List.length t).
Definition C (t : cword) (i : nat) : bool := is_consonant (at_ t i).
Definition V (t : cword) (i : nat) : bool := is_vowel (at_ t i).
(* lujvofns.c:86-95 *)
Definition is_ccv (t : cword) : bool := long 3 t && C t 0 && C t 1 && V t 2.
(* lujvofns.c:97-107 *)
Definition is_cvv (t : cword) : bool := long 3 t && C t 0 && V t 1 && V t 2.
(* lujvofns.c:109-120 *)
Definition is_cvav (t : cword) : bool := long 4 t && C t 0 && V t 1 && ceq (at_ t 2) "'" && V t 3.
(* lujvofns.c:122-131 *)
Definition is_cvc (t : cword) : bool := long 3 t && C t 0 && V t 1 && C t 2.
(* lujvofns.c:133-144 *)
Definition is_cvccv (t : cword) : bool := long 5 t && C t 0 && V t 1 && C t 2 && C t 3 && V t 4.
(* lujvofns.c:145-156 *)
Definition is_cvccy (t : cword) : bool := long 5 t && C t 0 && V t 1 && C t 2 && C t 3 && ceq (at_ t 4) "y".
(* lujvofns.c:157-168 *)
Definition is_ccvcv (t : cword) : bool := long 5 t && C t 0 && C t 1 && V t 2 && C t 3 && V t 4.
(* lujvofns.c:169-180 *)
Definition is_ccvcy (t : cword) : bool := long 5 t && C t 0 && C t 1 && V t 2 && C t 3 && ceq (at_ t 4) "y".

(* lujvofns.c:181-194 is_pairok on s[0], s[1]; both are characters of the string
   in all calls *)
Definition pair_is (a b : ascii) (s : string) : bool :=
  match w s with [x; y] => ceq a x && ceq b y | _ => false end.
Definition is_pairok (a b : ascii) : bool :=
  negb (ceq a b)
  && negb ((is_voiced a && is_unvoiced b) || (is_voiced b && is_unvoiced a))
  && negb (is_sibilant a && is_sibilant b)
  && (negb (pair_is a b "cx") && negb (pair_is a b "kx") && negb (pair_is a b "xc")
      && negb (pair_is a b "xk") && negb (pair_is a b "mz")).

(* strchr(s, c) != 0: true for the terminator too *)
Definition strchr (s : string) (c : ascii) : bool := existsb (ceq c) (w s ++ [NUL]).
(* lujvofns.c:196-223 is_initialpairok *)
Definition is_initialpairok (a b : ascii) : bool :=
  let any s := existsb (ceq a) (w s) in
  if any "bfgkmpvx" then strchr "lr" b
  else if any "cs" then strchr "fklmnprt" b
  else if any "d" then strchr "jrz" b
  else if any "jz" then strchr "bdgmv" b
  else if any "t" then strchr "crs" b
  else false.
(* lujvofns.c:225-231 is_bad_triple *)
Definition triple_is (a b c : ascii) (s : string) : bool :=
  match w s with [x; y; z] => ceq a x && ceq b y && ceq c z | _ => false end.
Definition is_bad_triple (a b c : ascii) : bool :=
  triple_is a b c "ntc" || triple_is a b c "nts" || triple_is a b c "ndj" || triple_is a b c "ndz".

(* lujvofns.c:370-380: the end of is_valid_lujvo; [None]: final_ccv is not set *)
Definition ivl_end (nr : nat) (start_cvv had_rn : bool) (final_ccv : option bool) : outcome bool :=
  if start_cvv then
    if Nat.eqb nr 2 then
      match final_ccv with None => UB UB_uninit | Some f => Ok (f || had_rn)%bool end
    else Ok had_rn
  else Ok true.

(* lujvofns.c:242-381 is_valid_lujvo: the loop from line 260 with the state at
   the start of a round; the buffer of 65536 is not modelled *)
Fixpoint ivl (fuel : nat) (t : cword) (nr : nat) (start_cvv had_rn : bool) (final_ccv : option bool) : outcome bool :=
  match fuel with
  | O => NoFuel
  | S fuel =>
      let len := List.length t in
      (* ADVANCE(n), nrafsi++, line 366 *)
      let next n sc hr fc :=
        match skipn n t with [] => ivl_end (S nr) sc hr fc | t' => ivl fuel t' (S nr) sc hr fc end in
      let go n := next n start_cvv had_rn final_ccv in
      let first := Nat.eqb nr 0 in
      if Nat.eqb len 5 && is_cvccv t then                                     (* 264-268 *)
        if first then Ok false else if negb (is_pairok (at_ t 2) (at_ t 3)) then Ok false else go 5
      else if Nat.eqb len 5 && is_ccvcv t then                                (* 269-273 *)
        if first then Ok false else if negb (is_pairok (at_ t 0) (at_ t 1)) then Ok false else go 5
      else if is_cvccy t then                                                 (* 274-278 *)
        if Nat.eqb len 5 then Ok false else if negb (is_pairok (at_ t 2) (at_ t 3)) then Ok false else go 5
      else if is_ccvcy t then                                                 (* 279-283 *)
        if Nat.eqb len 5 then Ok false else if negb (is_initialpairok (at_ t 0) (at_ t 1)) then Ok false else go 5
      else if is_cvc t then                                                   (* 284-325 *)
        if Nat.ltb len 6 then Ok false
        else if ceq (at_ t 3) "y" then
          let buf := at_ t 2 :: skipn 4 t in
          let pair_ok := is_pairok (at_ buf 0) (at_ buf 1) in
          let bad_triple := is_bad_triple (at_ buf 0) (at_ buf 1) (at_ buf 2) in
          do smabru <- (if first then ivl fuel buf 0 false false None else Ok false);
          let need_y := (bad_triple || (first && smabru))%bool in
          if pair_ok && negb need_y then Ok false else go 4
        else
          let pair_ok := is_pairok (at_ t 2) (at_ t 3) in
          let bad_triple := is_bad_triple (at_ t 2) (at_ t 3) (at_ t 4) in
          do smabru <- (if first then ivl fuel (skipn 2 t) 0 false false None else Ok false);
          let need_y := (bad_triple || (first && smabru))%bool in
          if negb pair_ok || need_y then Ok false else go 3
      else if is_cvv t then                                                   (* 326-341 *)
        if first then
          if Nat.ltb len 6 then Ok false
          else if (ceq (at_ t 3) "r" && (C t 4 && negb (ceq (at_ t 4) "r"))) || (ceq (at_ t 3) "n" && ceq (at_ t 4) "r")
          then next 4 true true final_ccv
          else next 3 true had_rn final_ccv
        else go 3
      else if is_cvav t then                                                  (* 342-357 *)
        if first then
          if Nat.ltb len 7 then Ok false
          else if (ceq (at_ t 4) "r" && (C t 5 && negb (ceq (at_ t 5) "r"))) || (ceq (at_ t 4) "n" && ceq (at_ t 5) "r")
          then next 5 true true final_ccv
          else next 4 true had_rn final_ccv
        else go 4
      else if is_ccv t then                                                   (* 358-362 *)
        if negb (is_initialpairok (at_ t 0) (at_ t 1)) then Ok false
        else next 3 start_cvv had_rn (if Nat.eqb len 3 then Some true else final_ccv)
      else Ok false                                                           (* 363-365 *)
  end.
Definition is_valid_lujvo (t : cword) : outcome bool := ivl (S (List.length t)) t 0 false false None.

(* ---------- jvocuhadju.c ---------- *)

Definition last_of (s : cword) : ascii := last s NUL.
(* jvocuhadju.c:31-37 *)
Definition ends_in_vowel (s : cword) : bool := is_vowel (last_of s).
(* jvocuhadju.c:39-45 *)
Definition chop_last_char (s : cword) : cword := removelast s.
(* jvocuhadju.c:50-80 can_join *)
Definition can_join (s1 s2 : cword) : bool :=
  let e1 := last_of s1 in
  let test1 := is_pairok e1 (at_ s2 0) in
  if C s2 1 then
    let test2 := is_initialpairok (at_ s2 0) (at_ s2 1) in
    let test3 :=
      if ceq e1 "n" then
        negb (pair_is (at_ s2 0) (at_ s2 1) "dj") && negb (pair_is (at_ s2 0) (at_ s2 1) "dz")
        && negb (pair_is (at_ s2 0) (at_ s2 1) "tc") && negb (pair_is (at_ s2 0) (at_ s2 1) "ts")
      else true in
    test1 && test2 && test3
  else test1.

(* jvocuhadju.c:656-673 lookup_gismu *)
Fixpoint index_of (s : cword) (l : list string) (i : nat) : option nat :=
  match l with
  | [] => None
  | g :: l => if list_eq_dec ascii_dec (w g) s then Some i else index_of s l (S i)
  end.
Definition lookup_gismu (s : cword) : option nat := index_of s gismu 0.

(* jvocuhadju.c:20-29: the options *)
Record options : Type := Options {
  uselong : bool; showall : bool; allowbrod : bool; showscore : bool; showannotations : bool }.

(* jvocuhadju.c:721-725: small letters and h as apostrophe, ASCII *)
Definition tolower (a : ascii) : ascii :=
  let n := N_of_ascii a in if ((65 <=? n) && (n <=? 90))%N then ascii_of_N (n + 32) else a.
Definition normal (s : cword) : cword := map (fun a => let a := tolower a in if ceq a "h" then "'"%char else a) s.

(* jvocuhadju.c:735-736: the short rafsi; an index outside the table is an access
   out of bounds *)
Definition short_rafsi (index : nat) : outcome (list cword) :=
  match nth_error n_rafsi index, nth_error start_indices index with
  | Some n, Some si =>
      if (si + n <=? N.of_nat (List.length rafsi))%N
      then Ok (map w (firstn (N.to_nat n) (skipn (N.to_nat si) rafsi)))
      else UB UB_bounds
  | _, _ => UB UB_bounds
  end.
Definition is_brod (s : cword) : bool := if list_eq_dec ascii_dec (firstn 4 s) (w "brod") then true else false.
(* jvocuhadju.c:718-771: the rafsi of one word.  The copy of line 720 goes into 6
   bytes.  At most 5 rafsi of 6 bytes fit (line 701); C25_room shows that they do *)
Definition rafsi_for (o : options) (is_last : bool) (word : cword) : outcome (list cword) :=
  if Nat.ltb 5 (List.length word) then UB UB_bounds
  else
    let t := normal word in
    match lookup_gismu t with
    | None => Exit 1
    | Some index =>
        do short <- short_rafsi index;
        if is_last then
          let short := filter ends_in_vowel short in
          Ok (if (uselong o || match short with [] => true | _ => false end) && Nat.eqb (List.length t) 5
              then short ++ [t] else short)
        else
          Ok (if (uselong o || match short with [] => true | _ => false end) && Nat.eqb (List.length t) 5
                 && (allowbrod o || negb (is_brod t))
              then short ++ [chop_last_char t] else short)
    end.
Fixpoint all_rafsi (o : options) (words : list cword) : outcome (list (list cword)) :=
  match words with
  | [] => Ok []
  | wd :: words =>
      do r <- rafsi_for o (match words with [] => true | _ => false end) wd;
      do rs <- all_rafsi o words;
      Ok (r :: rs)
  end.

(* ---- one candidate: rs is r[i][c[i]] for all i ---- *)

Notation glue := (option ascii).
(* jvocuhadju.c:837-862: all clear, then the hyphen after an initial CVV or CV'V *)
Definition rn (r1 : cword) : glue := Some (if ceq (at_ r1 0) "r" then "n"%char else "r"%char).
Definition glue_rn (rs : list cword) : list glue :=
  match rs with
  | r0 :: r1 :: rest =>
      let cv := is_cvv r0 || is_cvav r0 in
      (if negb (match rest with [] => true | _ => false end) && cv then rn r1
       else if (match rest with [] => true | _ => false end) && cv && (negb (is_ccv r1) || is_ccvcv r1) then rn r1
       else None) :: repeat None (S (List.length rest))
  | _ => repeat None (List.length rs)
  end.
(* jvocuhadju.c:864-870 *)
Fixpoint glue_pairs (rs : list cword) (g : list glue) : list glue :=
  match rs, g with
  | r0 :: ((r1 :: _) as rs), g0 :: g =>
      match g0 with None => if can_join r0 r1 then None else Some "y"%char | _ => g0 end :: glue_pairs rs g
  | _, _ => g
  end.
(* jvocuhadju.c:872-877 *)
Definition is_four (r : cword) : bool := Nat.eqb (List.length r) 4 && negb (ceq (at_ r 2) "'").
Fixpoint glue_fours (rs : list cword) (g : list glue) : list glue :=
  match rs, g with
  | r0 :: ((_ :: _) as rs), g0 :: g => (if is_four r0 then Some "y"%char else g0) :: glue_fours rs g
  | _, _ => g
  end.
(* jvocuhadju.c:912-929, and 889-897: the concatenation *)
Definition glued (g : glue) : cword := match g with None => [] | Some c => [c] end.
Fixpoint concat_glue (rs : list cword) (g : list glue) : cword :=
  match rs, g with
  | [r], _ => r
  | r :: rs, g0 :: g => r ++ glued g0 ++ concat_glue rs g
  | _, _ => []
  end.
(* jvocuhadju.c:879-907: the tosmabru test *)
Definition glue_tosmabru (rs : list cword) (g : list glue) : outcome (list glue) :=
  match rs, g with
  | r0 :: rs, None :: g' =>
      if is_cvc r0 then
        do v <- is_valid_lujvo (at_ r0 2 :: concat_glue rs g');
        Ok (if v then Some "y"%char :: g' else g)
      else Ok g
  | _, _ => Ok g
  end.
Definition glues (rs : list cword) : outcome (list glue) :=
  glue_tosmabru rs (glue_fours rs (glue_pairs rs (glue_rn rs))).

(* jvocuhadju.c:944-984: the shape of a rafsi; None: line 983 *)
Definition shape_score (r : cword) : option Z :=
  let n := List.length r in
  if is_cvccv r then Some 1%Z
  else if is_ccvcv r then Some 3%Z
  else if Nat.eqb n 4 && C r 0 && V r 1 && C r 2 && C r 3 then Some 2%Z
  else if Nat.eqb n 4 && C r 0 && C r 1 && V r 2 && C r 3 then Some 4%Z
  else if Nat.eqb n 4 && C r 0 && V r 1 && ceq (at_ r 2) "'" && V r 3 then Some 6%Z
  else if Nat.eqb n 3 && C r 0 && V r 1 && C r 2 then Some 5%Z
  else if Nat.eqb n 3 && C r 0 && C r 1 && V r 2 then Some 7%Z
  else if Nat.eqb n 3 && C r 0 && V r 1 && V r 2 then Some 8%Z
  else None.
Definition count (f : ascii -> bool) (s : cword) : Z := Z.of_nat (List.length (filter f s)).
Record tally : Type := Tally { tL : Z; tA : Z; tH : Z; tR : Z; tV : Z }.
(* jvocuhadju.c:933-997 *)
Fixpoint tally_up (rs : list cword) (g : list glue) (s : tally) : outcome tally :=
  match rs with
  | [] => Ok s
  | r :: rs =>
      let h := match rs, g with _ :: _, Some _ :: _ => 1%Z | _, _ => 0%Z end in
      match shape_score r with
      | None => Exit 1
      | Some rr =>
          tally_up rs (tl g)
            (Tally (tL s + Z.of_nat (List.length r) + h) (tA s + count (ceq "'") r) (tH s + h) (tR s + rr)
                   (tV s + count (fun c => existsb (ceq c) (w "aeiou")) r))
      end
  end%Z.
Record cand : Type := Cand { cword_of : cword; score : Z; mark : ascii }.
(* jvocuhadju.c:835-1000: one round of the loop *)
Definition candidate (rs : list cword) : outcome cand :=
  do g <- glues rs;
  do s <- tally_up rs g (Tally 0 0 0 0 0);
  Ok (Cand (concat_glue rs g) (1000 * tL s - 500 * tA s + 100 * tH s - 10 * tR s - tV s)%Z
        (if existsb (fun r => Nat.eqb (List.length r) 4 && is_brod r) rs then "!"%char else " "%char)).

(* ---- all candidates ---- *)

(* jvocuhadju.c:1006-1018: the counters; None when done *)
Fixpoint bump (nr c : list nat) : option (list nat) :=
  match nr, c with
  | n :: nr, x :: c =>
      if Nat.eqb (S x) n then option_map (cons 0) (bump nr c) else Some (S x :: c)
  | _, _ => None
  end.
Fixpoint choose (r : list (list cword)) (c : list nat) : list cword :=
  match r, c with
  | l :: r, x :: c => nth x l [] :: choose r c
  | _, _ => []
  end.
(* jvocuhadju.c:835-1020: [room] is MAX_LUJVO_COUNT - nl; the result is the
   candidates in order and lujvo_limit_hit *)
Fixpoint enumerate (room : nat) (r : list (list cword)) (c : list nat) : outcome (list cand * bool) :=
  match room with
  | O => NoFuel
  | S room =>
      do x <- candidate (choose r c);
      match room with
      | O => Ok ([x], true)
      | _ =>
          match bump (map (@List.length _) r) c with
          | None => Ok ([x], false)
          | Some c => do (l, hit) <- enumerate room r c; Ok (x :: l, hit)
          end
      end
  end.
(* jvocuhadju.c:20-21, 19 *)
Definition MAX_LUJVO_COUNT : nat := N.to_nat 65536.
Definition MAX_LUJVO_SHOWN : nat := 8.
Definition MAXT : nat := 50.

(* jvocuhadju.c:699-833, 1020: rafsi, the checks, the candidates.  The printed
   list of rafsi is not modelled *)
Definition makelujvo (o : options) (words : list cword) : outcome (list cand * bool) :=
  do r <- all_rafsi o words;
  if existsb (fun l => match l with [] => true | _ => false end) r then Exit 1
  else if Nat.ltb (List.length r) 2 then Exit 1
  else enumerate MAX_LUJVO_COUNT r (repeat 0 (List.length r)).

(* jvocuhadju.c:1024-1061: after sorting: the stars, and what is shown.  [l] is
   the array after qsort *)
Definition starred (x : cand) : cand := Cand (cword_of x) (score x) "*".
Fixpoint ties (best : Z) (first_mark : ascii) (l : list cand) : list cand :=
  match l with
  | [] => []
  | x :: l' =>
      if (score x =? best)%Z then (if ceq first_mark "!" then x else starred x) :: ties best first_mark l'
      else l
  end.
Definition stars (l : list cand) : list cand :=
  match l with
  | [] => []
  | x :: l => let x := if ceq (mark x) "!" then x else starred x in x :: ties (score x) (mark x) l
  end.
Definition shown (o : options) (l : list cand) : list cand :=
  if showall o then stars l else firstn MAX_LUJVO_SHOWN (stars l).

(* jvocuhadju.c:1074-1113 main *)
Definition is_opt (a : cword) (s : string) : bool := if list_eq_dec ascii_dec a (w s) then true else false.
Fixpoint args (l : list cword) (o : options) (words : list cword) (counter : nat) : outcome (options * list cword) :=
  match l with
  | [] => Ok (o, words)
  | a :: l =>
      if is_opt a "-v" then Exit 0
      else if is_opt a "-a" then args l (Options (uselong o) true (allowbrod o) (showscore o) (showannotations o)) words counter
      else if is_opt a "-l" then args l (Options true (showall o) (allowbrod o) (showscore o) (showannotations o)) words counter
      else if is_opt a "-b" then args l (Options (uselong o) (showall o) true (showscore o) (showannotations o)) words counter
      else if is_opt a "-S" then args l (Options (uselong o) (showall o) (allowbrod o) false (showannotations o)) words counter
      else if is_opt a "-A" then args l (Options (uselong o) (showall o) (allowbrod o) (showscore o) false) words counter
      else if is_opt a "-R" || is_opt a "-q" then args l o words counter
      else if ceq (at_ a 0) "-" then Exit 1
      else if Nat.leb MAXT (S counter) then Exit 1
      else args l o (words ++ [a]) (S counter)
  end.
Definition jvocuhadju (l : list cword) : outcome (options * (list cand * bool)) :=
  do (o, words) <- args l (Options false false false true true) [] 0;
  do r <- makelujvo o words;
  Ok (o, r).

(* ---------- canonluj.c ---------- *)

(* canonluj.c:32-55: by strchr, so also true for NUL *)
Definition IC (c : ascii) : bool := strchr "bcdfgjklmnprstvxz" c.
Definition IV (c : ascii) : bool := strchr "aeiou" c.

(* canonluj.c:59-82 contains_compound_consonant *)
Fixpoint compound_from (x : cword) : bool :=
  match x with
  | [] => false
  | p :: x' =>
      (IC p && (IC (at_ x' 0) || (ceq (at_ x' 0) "y" && IC (at_ x' 1)))) || compound_from x'
  end.
Definition contains_compound_consonant (x : cword) : bool :=
  if Nat.ltb (List.length x) 2 then false else compound_from x.

(* canonluj.c:104-116 lookup_component: bsearch in a sorted table with distinct
   keys (C26_table) finds the entry if there is one *)
Definition lookup_component (x : cword) : string :=
  match find (fun e => if list_eq_dec ascii_dec (w (fst e)) x then true else false) r2g with
  | Some e => snd e
  | None => "?"
  end.
(* canonluj.c:120-133 strip_leading_rafsi and the strcat of 156-170; the result as
   the list of the components *)
Definition strip (x : cword) (len hy : nat) : string * cword := (lookup_component (firstn len x), skipn (len + hy) x).

(* canonluj.c:172-223: how much to take off the front, and the hyphen; None: the
   return NULL of lines 186, 208, 224 *)
Definition front (x : cword) : option (nat * nat) :=
  if ceq (at_ x 3) "y" then Some (3, 1)
  else if ceq (at_ x 4) "y" then Some (4, 1)
  else if ceq (at_ x 5) "y" then Some (5, 1)
  else if ceq (at_ x 6) "y" && ceq (at_ x 3) "'" then Some (6, 1)
  else if negb (IC (at_ x 0)) then None
  else if IC (at_ x 1) && IV (at_ x 2) then Some (3, 0)
  else if IV (at_ x 1) && IC (at_ x 2) then Some (3, 0)
  else if IV (at_ x 1) then
    if ceq (at_ x 2) "'" then
      if IV (at_ x 3) then
        if (ceq (at_ x 4) "r" && IC (at_ x 5)) || (ceq (at_ x 4) "n" && ceq (at_ x 5) "r") then Some (4, 1) else Some (4, 0)
      else None
    else if IV (at_ x 2) then
      if (ceq (at_ x 3) "r" && IC (at_ x 4)) || (ceq (at_ x 3) "n" && ceq (at_ x 4) "r") then Some (3, 1) else Some (3, 0)
    else Some (3, 0)
  else None.
(* canonluj.c:138-239 split_lujvo; the buffer of 65536 is not modelled *)
Fixpoint split_lujvo (fuel : nat) (x : cword) : outcome (option (list string)) :=
  match fuel with
  | O => NoFuel
  | S fuel =>
      match List.length x with
      | 0 | 1 | 2 => Ok None
      | 3 | 4 => Ok (Some [lookup_component x])
      | 5 => Ok (Some [string_of_list_ascii x])
      | _ =>
          match front x with
          | None => Ok None
          | Some (len, hy) =>
              let (c, x) := strip x len hy in
              do r <- split_lujvo fuel x;
              Ok (option_map (cons c) r)
          end
      end
  end.
(* canonluj.c:258-275 canon_lujvo *)
Definition plus (l : list string) : string := String.concat "+" l.
Definition canon_lujvo (x : cword) : outcome (option string) :=
  if existsb (ceq "+") x then Ok (Some (string_of_list_ascii x))
  else if contains_compound_consonant x then
    do r <- split_lujvo (S (List.length x)) x; Ok (option_map plus r)
  else Ok None.
