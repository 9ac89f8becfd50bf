(* C31, C32, C33, C34, C59: the classification of written words. *)
From Coq Require Import String Ascii List NArith Bool Arith.
From Verif Require Import Base LujvoSpec MorfModel MorfSpec MorfProofs6 MorfProofs7 MorfProofs9 MorfProofs10 HyphProofs2.
Import ListNotations.
Open Scope string_scope.
Open Scope nat_scope.
Open Scope list_scope.

Definition answer (w : string) : outcome (morf_type * list nat) :=
  do r <- morf_scan false (text w); Ok (sc_type r, sc_starts r).

(* ---- C31 ---- *)
(* one word and a gismu: exactly the two shapes, whatever the commas *)
Theorem C31_gismu : forall cult w,
  (exists r p, morf_scan cult w = Ok r /\ sc_type r = MT_GISMU /\ sc_starts r = [p]) <-> gismu_form (letters_of w).
Proof. exact gismu_exact. Qed.
Print Assumptions C31_gismu.
Example C31_ex : answer "klama" = Ok (MT_GISMU, [0]) /\ answer "ta,vla" = Ok (MT_GISMU, [0])
  /\ answer "tavta" = Ok (MT_BOGUS, [])
  /\ answer "loklama" = Ok (MT_GISMU, [0; 2]) /\ gismu_form (letters_of (text "ta,vla")).
Proof. do 4 (split; [vm_compute; reflexivity|]). left. apply f_cvccv; reflexivity. Qed.

(* ---- C32 ---- *)
(* the answer for a written word follows from the one for its plain letters *)
Theorem C32_plain : forall cult w,
  match morf_scan cult (plain w) with
  | Ok r' => exists r, morf_scan cult w = Ok r /\ same_answer w r' r
  | o => morf_scan cult w = o
  end.
Proof. exact plain_answer. Qed.
Print Assumptions C32_plain.
Theorem C32_same_word : forall cult u w ru rw, same_word u w -> morf_scan cult u = Ok ru -> morf_scan cult w = Ok rw ->
  (sc_type ru = sc_type rw \/ existsb capital (u ++ w) = true /\ (sc_type ru = MT_BAD_UPPERCASE \/ sc_type rw = MT_BAD_UPPERCASE))
  /\ exists ks, sc_starts ru = map (at_letter u) ks /\ sc_starts rw = map (at_letter w) ks.
Proof. exact same_word_answers. Qed.
Print Assumptions C32_same_word.
Example C32_ex : same_word (text "lo,nu,klama") (text "lonuklama") /\ same_word (text "loNUklAma") (text "lonuklama")
  /\ answer "lonuklama" = Ok (MT_GISMU, [0; 2; 4]) /\ answer "lo,nu,klama" = Ok (MT_GISMU, [0; 3; 6])
  /\ answer "loNUklAma" = Ok (MT_BAD_UPPERCASE, [0; 2; 4]) /\ answer "DJAN" = Ok (MT_CMENE, [0]).
Proof. vm_compute. repeat split. Qed.

(* ---- C33 ---- *)
(* the pieces lie one after the other and make up the written word, and each is by
   itself a word of the kind it is taken for *)
Theorem C33_pieces : forall cult w r, morf_scan cult w = Ok r -> accepted (sc_type r) ->
  exists front lastp, split_at w (sc_starts r) (front ++ [lastp])
    /\ Forall (one_word cult MT_CMAVOS) front /\ one_word cult (sc_type r) lastp.
Proof. exact words. Qed.
Print Assumptions C33_pieces.
(* commas before the first letter belong to no piece *)
Theorem C33_lead_refuted : exists w r, morf_scan false w = Ok r /\ accepted (sc_type r)
  /\ forall ps, w = concat ps -> sc_starts r <> offsets 0 ps.
Proof.
  exists (text ",lo"). eexists. split; [vm_compute; reflexivity|]. split; [repeat split; discriminate|].
  cbn [sc_starts]. intros ps H E. destruct ps; [discriminate|]. discriminate E.
Qed.
Print Assumptions C33_lead_refuted.
Example C33_ex : answer "lenuloba'okla,ma" = Ok (MT_GISMU, [0; 2; 4; 6; 10]) /\ answer "cybyty" = Ok (MT_CMAVOS, [0; 2; 4]).
Proof. vm_compute. auto. Qed.

(* ---- C34 ---- *)
(* whenever the check answers, it has found the first of la, lai, doi that would be
   heard, with its place and whether cutting there leaves words; or there is none *)
Theorem C34_name : forall w i, is_bad_cmene w = Ok i ->
  exists i', name_answer (plain w) i' /\ is_bad i = is_bad i' /\ can_split i = can_split i'
    /\ ladoi i = option_map (at_letter w) (ladoi i') /\ tail i = option_map (at_letter w) (tail i').
Proof. intros w i H. destruct (name_checked w i H) as (i' & A & ->). exists i'. cbn. auto. Qed.
Print Assumptions C34_name.
(* it answers whenever the letters follow each other as they may in a name *)
Theorem C34_defined : forall w, letters_of w <> [] -> Forall name_letter (plain w) ->
  (forall a c b, plain w = a ++ c :: b -> name_step a c) -> exists i, is_bad_cmene w = Ok i.
Proof. exact name_defined. Qed.
Print Assumptions C34_defined.
(* but names with y before a vowel reach it, and make it read before its table *)
Theorem C34_defined_refuted : exists w, Forall name_letter w /\ morf_scan false w = UB UB_bounds.
Proof. exists (text "byyn"). split; [repeat constructor|vm_compute; reflexivity]. Qed.
Print Assumptions C34_defined_refuted.
Theorem C34_empty_refuted : exists w, forallb comma w = true /\ is_bad_cmene w = UB UB_uninit.
Proof. exists (text ","). vm_compute. auto. Qed.
Print Assumptions C34_empty_refuted.
Definition checked (w : string) := is_bad_cmene (text w).
Example C34_ex : checked "djan" = Ok (CInfo false false None None)
  /\ checked "sa,La,d" = Ok (CInfo true true (Some 3) (Some 6))
  /\ checked "mecylakorunas" = Ok (CInfo true false (Some 4) (Some 6))
  /\ checked "stela'ilan" = Ok (CInfo true true (Some 3) (Some 5))
  /\ checked "vladoian" = Ok (CInfo false false None None) /\ checked "djana" = Ok (CInfo true false None None).
Proof. vm_compute. repeat split. Qed.

(* ---- C59 ---- *)
(* the hyphen reported for a borrowing with a classifier is a hyphen: the letter that
   the neighbours ask for, before a consonant, after a part that can be a classifier,
   and for a classifier of one part that part begins the word *)
Theorem C59_hyphen : forall cult w r, morf_scan cult w = Ok r ->
  match sc_type r with
  | MT_FUIVLA3 => exists a h l, hyphened [CVCC; CCVC] (plain w) a h /\ sc_hyph r = Some (at_letter w h) /\ sc_starts r = l ++ [at_letter w a]
  | MT_FUIVLA3_CVC => exists a h l, hyphened [CVC] (plain w) a h /\ sc_hyph r = Some (at_letter w h) /\ sc_starts r = l ++ [at_letter w a]
  | MT_FUIVLA3X => exists a h, hyphened [CVCC; CCVC] (plain w) a h /\ sc_hyph r = Some (at_letter w h)
  | MT_FUIVLA3X_CVC => exists a h, hyphened [CVC] (plain w) a h /\ sc_hyph r = Some (at_letter w h)
  | MT_BAD_UPPERCASE => existsb capital w = true
  | _ => sc_hyph r = None
  end.
Proof. exact hyphen_written. Qed.
Print Assumptions C59_hyphen.
Definition hyphen_of (w : string) := do r <- morf_scan false (text w); Ok (sc_type r, sc_starts r, sc_hyph r).
Example C59_ex : hyphen_of "cidjrspageti" = Ok (MT_FUIVLA3, [0], Some 4) /\ hyphen_of "cidj,r,spageti" = Ok (MT_FUIVLA3, [0], Some 5)
  /\ hyphen_of "lokulnrsu,omi" = Ok (MT_FUIVLA3, [0; 2], Some 6) /\ hyphen_of "salnrfoi" = Ok (MT_FUIVLA3, [0], Some 4)
  /\ hyphen_of "tarnlrero" = Ok (MT_FUIVLA3, [0], Some 4) /\ hyphen_of "kelrspageti" = Ok (MT_FUIVLA3_CVC, [0], Some 3)
  /\ hyphen_of "selcidjrspageti" = Ok (MT_FUIVLA3X, [0], Some 7) /\ hyphen_of "selkelrspageti" = Ok (MT_FUIVLA3X_CVC, [0], Some 6)
  /\ hyphen_of "mlatrxa'a" = Ok (MT_FUIVLA3, [0], Some 4) /\ hyphened [CVCC; CCVC] (text "mlatrxa'a") 0 4
  /\ borrow_hyphen "n" "r" = "l"%char /\ borrow_hyphen "n" "s" = "r"%char /\ borrow_hyphen "r" "d" = "n"%char.
Proof.
  repeat apply conj; try (vm_compute; reflexivity).
  exists [], (text "mlat"), CCVC, "t"%char, "x"%char, (text "a'a"). split; [reflexivity|]. split; [cbn; auto|].
  split; [apply f_ccvc; reflexivity|]. split; [exists (text "mla"); reflexivity|]. repeat split.
Qed.
