(* C16, C17: sumti get their places; the tables of twenty places. *)
From Coq Require Import List NArith Bool Arith Lia.
From Verif Require Import Base TreeModel ConvSpec TermsModel TermsSpec TermsProofs TermsProofs2.
Import ListNotations.
Open Scope list_scope.

(* C16: with any links, conversions and jai inside the selbri (each jai with a
   tag, its first place not yet given to a sumti), the places chained to the
   sumti are the ones they mean. *)
Theorem C16_places : forall pre post lc out,
  Forall term_ok pre -> Forall term_ok post -> Forall link_ok lc ->
  regular pre post lc out -> fits out -> List.length (filter is_jai lc) <= 19 ->
  exists xs, assign_places pre post lc = Ok xs /\
    map shown_place xs = map (fun g => (fst (fst g), snd g)) out.
Proof. exact regular_places. Qed.
Print Assumptions C16_places.

(* any sumti and conversions whatever have exactly one meaning, and those without
   jai are regular *)
Theorem C16_meaning_exists : forall pre post lc,
  Forall term_ok pre -> Forall term_ok post -> Forall link_ok lc -> exists out, meaning pre post lc out.
Proof. exact (bridi_total slot jai_slot false Core). Qed.
Print Assumptions C16_meaning_exists.
Theorem C16_meaning_unique : forall pre post lc o1 o2,
  meaning pre post lc o1 -> meaning pre post lc o2 -> o1 = o2.
Proof. exact (bridi_det slot jai_slot false Core (fun _ _ => True)). Qed.
Print Assumptions C16_meaning_unique.
Theorem C16_without_jai : forall pre post lc out,
  filter is_jai lc = [] -> meaning pre post lc out -> regular pre post lc out.
Proof. exact no_jai_regular. Qed.
Print Assumptions C16_without_jai.
Theorem C16_regular_meaning : forall pre post lc out, regular pre post lc out -> meaning pre post lc out.
Proof. exact regular_meaning. Qed.
Print Assumptions C16_regular_meaning.

(* Sumti without marks and a plain selbri: those before count from one, those
   after continue, from two at least. *)
Theorem C16_plain : forall a b,
  List.length a <= 19 -> Nat.max 2 (S (List.length a)) + List.length b <= 20 ->
  exists xs, assign_places (map TRM_POS a) (map TRM_POS b) [] = Ok xs /\
    map shown_place xs =
    combine a (map Core (seq 1 (List.length a))) ++
    combine b (map Core (seq (Nat.max 2 (S (List.length a))) (List.length b))).
Proof. exact plain_places. Qed.
Print Assumptions C16_plain.

(* mi fe do cu te jai gau se klama be ko'a bei fai ko'e: a case with everything;
   mi [0], do [1], ko'a [2], ko'e [3], ti (after) [4] *)
Definition ex_pre := [TRM_POS [0]; TRM_FA 2 [1]].
Definition ex_post := [TRM_POS [4]; TRM_TAG [5]].
Definition ex_lc := [LC_LINKS [TRM_POS [2]; TRM_FA 101 [3]]; LC_SE 3; LC_TAG [7] [8]; LC_SE 2].
Example C16_ex : exists out, regular ex_pre ex_post ex_lc out /\ fits out /\
  map (fun g => (fst (fst g), snd g)) out =
    [([3], Core 2); ([2], Core 1); ([1], Core 1); ([0], Core 3); ([4], Modal [7] [8])].
Proof.
  eexists. split; [| split].
  - unfold ex_pre, ex_post, ex_lc.
    eapply bridi_intro.
    + cbn [rev app]. econstructor; [apply link_se; lia |].
      econstructor; [apply link_tag; split; [reflexivity | discriminate] |].
      econstructor; [apply link_se; lia |].
      econstructor; [apply link_links, placed_intro | apply links_nil].
      apply um_pos with (p := 2); [lia | reflexivity | intros q Q; lia |]. apply um_fai, um_nil.
    + apply placed_intro. apply um_pos with (p := 1); [lia | reflexivity | intros q Q; lia |].
      apply um_fa; [lia |]. apply um_nil.
    + apply placed_intro. apply um_pos with (p := 3); [lia | reflexivity | |].
      { intros q Q. assert (q = 2) by lia. subst. reflexivity. }
      apply um_tag, um_nil.
  - cbn. intros n p a I. repeat (destruct I as [I|I]; [inversion I; lia |]). contradiction.
  - reflexivity.
Qed.

(* A bare jai is a new first place; it is shown as the place it took away, the
   same as that of fai.  jai rinka: mi jai rinka fai do *)
Theorem C16_bare_jai_refuted : exists pre post lc out xs,
  Forall term_ok pre /\ Forall term_ok post /\ Forall link_ok lc /\
  meaning pre post lc out /\ fits out /\ assign_places pre post lc = Ok xs /\
  map (fun g => (fst (fst g), snd g)) out = [([0], Raised); ([1], Core 1)] /\
  map shown_place xs = [([0], Core 1); ([1], Core 1)].
Proof.
  exists [TRM_POS [0]], [TRM_FA 101 [1]], [LC_JAI]. eexists _, _.
  split; [repeat constructor |]. split; [constructor; [right; reflexivity | constructor] |].
  split; [repeat constructor |]. split; [| split; [| split; [| split]]].
  - eapply bridi_intro.
    + cbn [rev app]. econstructor; [apply link_jai; exact I | apply links_nil].
    + apply placed_intro. apply um_pos with (p := 1); [lia | reflexivity | intros q Q; lia |]. apply um_nil.
    + apply placed_intro. apply um_fai, um_nil.
  - cbn. intros n p a I. repeat (destruct I as [I|I]; [inversion I; lia |]). contradiction.
  - reflexivity.
  - reflexivity.
  - reflexivity.
Qed.
Print Assumptions C16_bare_jai_refuted.

(* When the place taken away has been given to a sumti, the new first place counts
   as given too, and the first sumti gets the second place instead.
   mi jai gau ke klama be fa do ke'e *)
Theorem C16_filled_jai_refuted : exists pre post lc out xs,
  Forall term_ok pre /\ Forall term_ok post /\ Forall link_ok lc /\
  meaning pre post lc out /\ fits out /\ assign_places pre post lc = Ok xs /\
  map (fun g => (fst (fst g), snd g)) out = [([1], Core 1); ([0], Modal [7] [8])] /\
  map shown_place xs = [([1], Core 1); ([0], Core 2)].
Proof.
  exists [TRM_POS [0]], [], [LC_TAG [7] [8]; LC_LINKS [TRM_FA 1 [1]]]. eexists _, _.
  split; [repeat constructor |]. split; [constructor |].
  split; [constructor; [exact I | constructor; [constructor; [left; lia | constructor] | constructor]] |].
  split; [| split; [| split; [| split]]].
  - eapply bridi_intro.
    + cbn [rev app]. econstructor; [apply link_links, placed_intro; apply um_fa; [lia | apply um_nil] |].
      econstructor; [apply link_tag; exact I | apply links_nil].
    + apply placed_intro. apply um_pos with (p := 1); [lia | reflexivity | intros q Q; lia |]. apply um_nil.
    + apply placed_intro. apply um_nil.
  - cbn. intros n p a I. repeat (destruct I as [I|I]; [inversion I; lia |]). contradiction.
  - reflexivity.
  - reflexivity.
  - reflexivity.
Qed.
Print Assumptions C16_filled_jai_refuted.

(* C17: the tables are never overrun when there are at most fourteen sumti without
   marks and nineteen jai, *)
Theorem C17_safe : forall pre post lc,
  Forall term_ok pre -> Forall term_ok post -> Forall link_ok lc ->
  total_links lc + unmarked_count pre + unmarked_count post <= 14 ->
  List.length (filter is_jai lc) <= 19 ->
  exists xs, assign_places pre post lc = Ok xs.
Proof. exact few_safe. Qed.
Print Assumptions C17_safe.

(* and in general exactly when every number that is given is below twenty; if not,
   memory outside the tables is accessed: the test against MAX_POS never helps. *)
Theorem C17_exact : forall pre post lc out,
  Forall term_ok pre -> Forall term_ok post -> Forall link_ok lc -> observed pre post lc out ->
  if_fits (fits out /\ List.length (filter is_jai lc) <= 19)
    (exists xs, assign_places pre post lc = Ok xs) (assign_places pre post lc = UB UB_bounds).
Proof. exact observed_exact. Qed.
Print Assumptions C17_exact.
Theorem C17_observed_exists : forall pre post lc,
  Forall term_ok pre -> Forall term_ok post -> Forall link_ok lc -> exists out, observed pre post lc out.
Proof. exact (bridi_total (place_type * nat) jai_shown true (fun p => (PT_ORD, p))). Qed.
Print Assumptions C17_observed_exists.

(* twenty sumti, which the vectors hold, overrun the table of places *)
Theorem C17_bounds_refuted : exists pre post lc,
  Forall term_ok pre /\ Forall term_ok post /\ Forall link_ok lc /\
  List.length pre <= MAX_TERMS_IN_VECTOR /\ List.length post <= MAX_TERMS_IN_VECTOR /\
  assign_places pre post lc = UB UB_bounds.
Proof.
  exists (map TRM_POS (repeat [] 20)), [], [].
  split; [apply plain_ok |]. split; [constructor |]. split; [constructor |].
  split; [unfold MAX_TERMS_IN_VECTOR; rewrite map_length, repeat_length; lia |]. split; [cbn; lia | reflexivity].
Qed.
Print Assumptions C17_bounds_refuted.
Example C17_ex : Forall term_ok ex_pre /\ Forall term_ok ex_post /\ Forall link_ok ex_lc /\
  total_links ex_lc + unmarked_count ex_pre + unmarked_count ex_post <= 14 /\
  List.length (filter is_jai ex_lc) <= 19.
Proof. repeat split; repeat constructor; cbn; lia. Qed.
