(* C23, C24, C25, C26, C51: making lujvo and taking them apart. *)
From Coq Require Import String Ascii List NArith ZArith Bool Arith Sorted Permutation.
From Verif Require Import Base LujvoData LujvoModel LujvoSpec LujvoProofs2 LujvoProofs3 LujvoProofs4 LujvoProofs6 LujvoProofs7 LujvoProofs8 LujvoProofs9 LujvoProofs10.
From Verif Require DictSpec.
Import ListNotations.
Open Scope string_scope.
Open Scope list_scope.

(* ---- C23 ---- *)
(* every candidate is a well-formed lujvo of as many parts as there were words *)
Theorem C23_made_valid : forall o words cs hit c, makelujvo o words = Ok (cs, hit) -> In c cs ->
  exists l, parts l /\ lujvo l (cword_of c) /\ List.length l = List.length words /\ 2 <= List.length l.
Proof. exact made_valid. Qed.
Print Assumptions C23_made_valid.
(* the checker accepts exactly the words of the (slightly wider) rules *)
Theorem C23_checker : forall t, smalls t -> 3 < List.length t ->
  is_valid_lujvo t = Ok true <-> exists l, parts_lax l /\ lujvo_lax l t.
Proof. exact checker_iff. Qed.
Print Assumptions C23_checker.
(* so every well-formed lujvo passes, but for two parts of which the first is CVV
   and the second not CCV: there a variable is read before it is set *)
Theorem C23_checker_accepts : forall l t, parts l -> lujvo l t ->
  is_valid_lujvo t = Ok true
  \/ (exists k p y, (k = CVV \/ k = CVhV) /\ l = [(k, p); y] /\ fst y <> CCV) /\ is_valid_lujvo t = UB UB_uninit.
Proof. exact checker_accepts. Qed.
Print Assumptions C23_checker_accepts.
Theorem C23_checker_unset_refuted : exists l t, parts l /\ lujvo l t /\ is_valid_lujvo t = UB UB_uninit.
Proof. destruct unset_example as [l H]. exists l, (text "baurbau"). exact H. Qed.
Print Assumptions C23_checker_unset_refuted.
(* and what passes wrongly has a bad pair five letters before the end, or an
   unwanted hyphen *)
Theorem C23_checker_excess : forall l t, parts_lax l -> lujvo_lax l t ->
  (parts l /\ lujvo l t)
  \/ (exists pre a b v c u, t = pre ++ [a; b; v; c; u] /\ permissible a b = true /\ initial_pair a b = false)
  \/ (exists k p q h, (k = CVV \/ k = CVhV) /\ form k p /\ form CCV q /\ (h = "r" \/ h = "n")%char /\ t = p ++ [h] ++ q).
Proof. exact lax_strict. Qed.
Print Assumptions C23_checker_excess.
Theorem C23_checker_pair_refuted : exists t, is_valid_lujvo t = Ok true /\ forall l, parts l -> ~ lujvo l t.
Proof. exists (text "blanrapi"). exact bad_initial_accepted. Qed.
Print Assumptions C23_checker_pair_refuted.
Theorem C23_checker_hyphen_refuted : exists t, is_valid_lujvo t = Ok true /\ forall l, parts l -> ~ lujvo l t.
Proof. exists (text "baurbla"). exact extra_hyphen_accepted. Qed.
Print Assumptions C23_checker_hyphen_refuted.
Theorem C23_checker_short_refuted : exists t, is_valid_lujvo t = Ok true /\ forall l, parts l -> ~ lujvo l t.
Proof. exists (text "bla"). exact lone_rafsi_accepted. Qed.
Print Assumptions C23_checker_short_refuted.
(* it always comes to an end *)
Theorem C23_checker_ends : forall t, t <> [] -> (exists b, is_valid_lujvo t = Ok b) \/ is_valid_lujvo t = UB UB_uninit.
Proof. exact checker_total. Qed.
Print Assumptions C23_checker_ends.
(* the list of words: tosmabru, the two kinds of hyphen *)
Definition made_words (o : options) (l : list string) : outcome (list (string * Z)) :=
  do r <- makelujvo o (map text l);
  Ok (map (fun c => (string_of_list_ascii (cword_of c), score c)) (fst r)).
Definition plain : options := Options false false false true true.
Example C23_ex : made_words plain ["tosku"; "mabru"] = Exit 1 /\
  made_words plain ["gasnu"; "gleki"; "bangu"] =
    Ok [("gaurgekybau", 10985); ("gaurgeibau", 9854)]%Z /\
  made_words plain ["tumla"; "mabru"] = Ok [("tumymabru", 9037); ("tu'armabru", 9526)]%Z.
Proof. vm_compute. auto. Qed.

(* ---- C24 ---- *)
(* the score of every candidate is the published one *)
Theorem C24_score : forall o words cs hit c, makelujvo o words = Ok (cs, hit) -> In c cs ->
  exists l, parts l /\ lujvo l (cword_of c) /\ score c = published_score l (cword_of c).
Proof. exact made_score. Qed.
Print Assumptions C24_score.
(* whatever order the library's sort gives to equal scores: what is shown is in
   order, nothing hidden is better, and the star is on the best only *)
Theorem C24_order : forall o cs sorted, Permutation cs sorted -> StronglySorted by_score sorted ->
  StronglySorted by_score (shown o sorted) /\
  (exists first rest, Permutation cs (first ++ rest) /\ Forall2 same_word first (shown o sorted) /\
     (forall a b, In a first -> In b rest -> (score a <= score b)%Z) /\
     (showall o = true -> rest = []) /\ (showall o = false -> List.length first = Nat.min 8 (List.length cs))) /\
  ((forall c, In c cs -> mark c <> "*"%char) ->
   forall y, In y (shown o sorted) -> mark y = "*"%char -> forall c, In c cs -> (score y <= score c)%Z).
Proof. exact shown_spec. Qed.
Print Assumptions C24_order.
(* and no candidate has a star beforehand *)
Theorem C24_unmarked : forall o words cs hit c, makelujvo o words = Ok (cs, hit) -> In c cs -> mark c = "!"%char \/ mark c = " "%char.
Proof. exact made_mark. Qed.
Print Assumptions C24_unmarked.
Example C24_ex : shown plain [Cand (text "a") 3 " "; Cand (text "b") 3 "!"; Cand (text "c") 5 " "]
  = [Cand (text "a") 3 "*"; Cand (text "b") 3 "*"; Cand (text "c") 5 " "].
Proof. vm_compute. reflexivity. Qed.
(* the mark of an unreliable form is lost when it ties with a better one *)
Theorem C24_brod_mark_refuted : exists o sorted c, In c sorted /\ mark c = "!"%char /\ StronglySorted by_score sorted /\
  forall y, In y (shown o sorted) -> cword_of y = cword_of c -> mark y = "*"%char.
Proof. exact mark_lost. Qed.
Print Assumptions C24_brod_mark_refuted.

(* ---- C25 ---- *)
(* one candidate for each choice of rafsi, in order, up to 65536 of them; and the
   warning exactly when there are at least so many *)
Theorem C25_enumerates : forall o words cs hit, makelujvo o words = Ok (cs, hit) ->
  2 <= List.length words /\
  exists gs all, Forall2 typed words gs /\ Forall (fun g => In g gismu) gs /\ NoDup all /\
    (forall rs, In rs all <-> choices (uselong o) (allowbrod o) gs rs) /\
    Forall2 made_of (firstn MAX_LUJVO_COUNT all) cs /\ (hit = true <-> MAX_LUJVO_COUNT <= List.length all).
Proof. exact made. Qed.
Print Assumptions C25_enumerates.
(* for words of at most five letters there are candidates whenever there is a choice *)
Theorem C25_total : forall o words, Forall (fun wd => List.length wd <= 5) words ->
  (exists cs hit, makelujvo o words = Ok (cs, hit) /\ 2 <= List.length words /\
     exists gs rs, Forall (fun g => In g gismu) gs /\ Forall2 typed words gs /\ choices (uselong o) (allowbrod o) gs rs)
  \/ (makelujvo o words = Exit 1 /\
      ~ (2 <= List.length words /\ exists gs rs, Forall (fun g => In g gismu) gs /\ Forall2 typed words gs /\ choices (uselong o) (allowbrod o) gs rs)).
Proof. exact made_total. Qed.
Print Assumptions C25_total.
(* at most five rafsi for a word: the array is large enough *)
Theorem C25_room : forall o is_last wd l, rafsi_for o is_last wd = Ok l -> List.length l <= 5.
Proof. exact room_ok. Qed.
Print Assumptions C25_room.
(* a longer word is copied over the end of a buffer *)
Theorem C25_long_word_refuted : forall o wd words, 5 < List.length wd -> makelujvo o (wd :: words) = UB UB_bounds.
Proof. exact made_long. Qed.
Print Assumptions C25_long_word_refuted.
(* with exactly 65536 choices all are made, yet the warning appears *)
Theorem C25_warning_refuted : exists o words cs gs all, makelujvo o words = Ok (cs, true) /\ Forall2 typed words gs /\
  (forall rs, In rs all <-> choices (uselong o) (allowbrod o) gs rs) /\ Forall2 made_of all cs.
Proof. exists plain_options, sixteen. exact cap_exact. Qed.
Print Assumptions C25_warning_refuted.
(* the command line: the words are the arguments without a dash, in order, fewer
   than fifty; the switches count wherever they stand *)
Theorem C25_arguments : forall l o ws n o' ws', args l o ws n = Ok (o', ws') ->
  ws' = ws ++ filter (fun a => negb (dashed a)) l /\
  (n + List.length (filter (fun a => negb (dashed a)) l) < 50 \/ filter (fun a => negb (dashed a)) l = []) /\
  Forall (fun a => dashed a = true -> switch a = true) l /\
  (showall o' = true <-> showall o = true \/ In (text "-a") l) /\
  (uselong o' = true <-> uselong o = true \/ In (text "-l") l) /\
  (allowbrod o' = true <-> allowbrod o = true \/ In (text "-b") l) /\
  (showscore o' = true <-> showscore o = true /\ ~ In (text "-S") l) /\
  (showannotations o' = true <-> showannotations o = true /\ ~ In (text "-A") l).
Proof. exact args_spec. Qed.
Print Assumptions C25_arguments.
Example C25_ex : made_words (Options true false false true true) ["GISMU"; "zbasu"] =
  Ok [("gimyzba", 6978); ("gi'uzba", 6367); ("gismyzba", 8008); ("gimyzbasu", 9017); ("gi'urzbasu", 9506); ("gismyzbasu", 10047)]%Z.
Proof. vm_compute. reflexivity. Qed.

(* ---- C26 ---- *)
(* a lujvo whose parts stand for the words gs is taken apart into gs *)
Theorem C26_inverts : forall l t gs, parts l -> lujvo l t -> Forall2 stands_for (map snd l) gs ->
  canon_lujvo t = Ok (Some (plus gs)).
Proof. exact canon_spec. Qed.
Print Assumptions C26_inverts.
(* so what the maker makes is taken apart into the words typed, unless it is
   marked as unreliable *)
Theorem C26_round_trip : forall o words cs hit c, makelujvo o words = Ok (cs, hit) -> In c cs -> mark c <> "!"%char ->
  exists gs, Forall2 typed words gs /\ canon_lujvo (cword_of c) = Ok (Some (plus gs)).
Proof. exact made_back. Qed.
Print Assumptions C26_round_trip.
(* the table is in strictly increasing order, as the binary search needs *)
Theorem C26_table : StronglySorted DictSpec.before (map fst r2g).
Proof. exact (strings_sorted_spec _ r2g_sorted). Qed.
Print Assumptions C26_table.
(* any string at all: an answer or a failure *)
Theorem C26_total : forall x, exists r, canon_lujvo x = Ok r.
Proof. exact canon_total. Qed.
Print Assumptions C26_total.
(* and the answer accounts for the whole string *)
Theorem C26_covers : forall fuel x gs, split_lujvo fuel x = Ok (Some gs) ->
  exists ps, x = flat_map (fun q => fst q ++ snd q) ps /\ Forall2 means (map fst ps) gs /\
    Forall (fun q : list ascii * list ascii => List.length (snd q) <= 1 /\ 3 <= List.length (fst q)) ps.
Proof. exact split_covers. Qed.
Print Assumptions C26_covers.
Example C26_ex : canon_lujvo (text "gi'urzbasu") = Ok (Some "gismu+zbasu") /\ canon_lujvo (text "brodykla") = Ok (Some "brodu+klama").
Proof. vm_compute. auto. Qed.

(* ---- C51 ---- *)
Theorem C51_one_analysis : forall l l' t, parts l -> parts l' -> lujvo l t -> lujvo l' t -> l = l'.
Proof. exact lujvo_inj. Qed.
Print Assumptions C51_one_analysis.
Theorem C51_one_word : forall l t t', lujvo l t -> lujvo l t' -> t = t'.
Proof. exact lujvo_fun. Qed.
Print Assumptions C51_one_word.
Theorem C51_exists : forall l, parts l -> 2 <= List.length l -> exists t, lujvo l t.
Proof. exact lujvo_exists. Qed.
Print Assumptions C51_exists.
Example C51_ex : exists l, parts l /\ lujvo l (text "gi'urzbasu").
Proof. exact own_example. Qed.
