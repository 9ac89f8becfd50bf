From Coq Require Import String Ascii List NArith ZArith Bool Arith Lia.
From Verif Require Import Base DictModel TransModel TransSpec TransProofs TransProofs2 TransProofs3 TransProofs5.
Import ListNotations.
Open Scope string_scope.
Open Scope list_scope.

Notation cat := (String.concat "+").
Lemma cat_app a b : a <> [] -> b <> [] -> cat (a ++ b) = (cat a ++ "+" ++ cat b)%string.
Proof.
  intros A B. induction a as [|x a IH]; [congruence |]. destruct a as [|y a].
  - destruct b as [|z b]; [congruence |]. reflexivity.
  - change (cat ((x :: y :: a) ++ b)) with (x ++ "+" ++ cat ((y :: a) ++ b))%string. rewrite IH by discriminate.
    change (cat (x :: y :: a)) with (x ++ "+" ++ cat (y :: a))%string. rewrite !sapp_assoc. reflexivity.
Qed.
Lemma pieces_from_split a : a <> [] -> Forall plusless a -> forall b, b <> [] -> forall pos at0 cur,
  pieces_from pos at0 cur (cat (a ++ b)) =
  pieces_from pos at0 cur (cat a) ++ pieces_from (S (pos + String.length (cat a))) (pos + String.length (cat a)) "" (cat b).
Proof.
  induction a as [|x a IH]; intros NA F b NB pos at0 cur; [congruence |]. inversion F; subst. destruct a as [|y a].
  - rewrite cat_app by (assumption || discriminate). cbn [String.concat]. change ("+" ++ cat b)%string with (String "+" (cat b)).
    rewrite pieces_from_plus, (pieces_from_word x) by assumption. reflexivity.
  - change (cat ((x :: y :: a) ++ b)) with (x ++ String "+" (cat ((y :: a) ++ b)))%string.
    change (cat (x :: y :: a)) with (x ++ String "+" (cat (y :: a)))%string.
    rewrite !pieces_from_plus by assumption. rewrite IH by (assumption || discriminate). rewrite slen_app. cbn [String.length app]. f_equal.
    replace (pos + (String.length x + S (String.length (cat (y :: a))))) with (S (pos + String.length x) + String.length (cat (y :: a))) by lia. reflexivity.
Qed.
Lemma pieces_as_from l : l <> [] -> Forall (fun s => plusless s /\ s <> "") l -> pieces (cat l) = pieces_from 0 0 "" (cat l).
Proof.
  intros N F. destruct l as [|a l]; [congruence |]. inversion F as [|? ? (P & NE) F']; subst. destruct a as [|c a]; [congruence |].
  assert (exists r, cat (String c a :: l) = String c r) as (r & E) by (destruct l; cbn; eauto). rewrite E. unfold pieces.
  apply plusless_cons in P. destruct P as (C & _). rewrite (proj2 (Ascii.eqb_neq _ _) C). reflexivity.
Qed.
Lemma pieces_split a b : a <> [] -> b <> [] -> Forall (fun s => plusless s /\ s <> "") a -> Forall (fun s => plusless s /\ s <> "") b ->
  pieces (cat (a ++ b)) = pieces (cat a) ++ pieces_from (S (String.length (cat a))) (String.length (cat a)) "" (cat b).
Proof.
  intros NA NB FA FB. rewrite !pieces_as_from; auto; [| destruct a; [congruence | discriminate] | apply Forall_app; auto].
  apply (pieces_from_split a NA); [| exact NB]. eapply Forall_impl; [| exact FA]. intros s X. exact (proj1 X).
Qed.
Lemma gather_head l p q acc c cs : gather_comps (l ++ [(p, q)]) acc = Ok (c :: cs) -> start c = p.
Proof.
  rewrite gather_app. destruct (gather_comps l acc) as [a| | | |]; cbn [obind]; try discriminate. cbn [gather_comps].
  destruct (conversion q).
  - destruct a as [|[s0 p0 t pl] a]; [discriminate |]. intro E. injection E as <- _. reflexivity.
  - destruct (Nat.leb 32 _); [discriminate |]. destruct (Nat.leb 6 _); [discriminate |]. intro E. injection E as <- _. reflexivity.
Qed.
Lemma words_cons p ps : words (p :: ps) = (fst p ++ [snd p]) ++ words ps. Proof. reflexivity. Qed.
Lemma words_app a b : words (a ++ b) = words a ++ words b. Proof. apply flat_map_app. Qed.
Lemma words_nil ps : words ps = [] <-> ps = [].
Proof. split; [| intros ->; reflexivity]. destruct ps as [|p ps]; [auto |]. rewrite words_cons. destruct (fst p); discriminate. Qed.
Lemma from_cons pos at0 cur s : exists q rest, pieces_from pos at0 cur s = (at0, q) :: rest.
Proof.
  revert pos at0 cur. induction s as [|c s IH]; intros; cbn [pieces_from]; [eauto |].
  destruct (Ascii.eqb c "+"); [eauto | apply IH].
Qed.

(* the split of a compound of two groups of parts *)
Lemma split_two fr bk : fr <> [] -> bk <> [] -> Forall good_part fr -> Forall good_part bk -> List.length fr + List.length bk <= 32 ->
  exists ca cb c0, split_into_comps (spelled (fr ++ bk)) = Ok (ca ++ cb) /\ Forall2 comp_of fr ca /\ Forall2 comp_of bk cb /\
    hd c0 cb = c0 /\ start c0 = String.length (spelled fr) /\
    gather_comps (rev (pieces_from (S (String.length (spelled fr))) (String.length (spelled fr)) "" (spelled bk))) [] = Ok cb.
Proof.
  intros NA NB FA FB L. assert (WA : words fr <> []) by (intro E; apply words_nil in E; contradiction).
  assert (WB : words bk <> []) by (intro E; apply words_nil in E; contradiction).
  unfold split_into_comps, spelled. change (flat_map (fun p : list string * string => fst p ++ [snd p])) with words. rewrite words_app.
  rewrite pieces_split; [| assumption | assumption | apply words_good; assumption | apply words_good; assumption].
  set (n := String.length (cat (words fr))). set (pb := pieces_from (S n) n "" (cat (words bk))).
  assert (PB : map snd pb = words bk).
  { unfold pb. rewrite pieces_concat_from; [destruct (words bk); [congruence | reflexivity] | assumption |].
    eapply Forall_impl; [| apply words_good; exact FB]. intros s X. exact (proj1 X). }
  destruct (gather_parts bk FB pb PB []) as (cb & GB & CB); [cbn; lia |]. rewrite app_nil_r in GB.
  destruct (gather_parts fr FA (pieces (cat (words fr)))) with (acc := cb) as (ca & GA & CA).
  - apply pieces_words. apply words_good. exact FA.
  - rewrite <- (Forall2_length _ _ _ CB). lia.
  - assert (exists c0 cs, cb = c0 :: cs) as (c0 & cs & EC).
    { pose proof (Forall2_length _ _ _ CB) as LL. destruct cb; [destruct bk; [congruence | discriminate LL] | eauto]. }
    exists ca, cb, c0. rewrite rev_app_distr, gather_app. fold pb. rewrite GB. cbn [obind]. rewrite GA.
    repeat split; auto; [rewrite EC; reflexivity |].
    destruct (from_cons (S n) n "" (cat (words bk))) as (q & rest & EP). fold pb in EP. rewrite EP in GB. cbn [rev] in GB. rewrite EC in GB.
    exact (gather_head _ _ _ _ _ _ GB).
Qed.
Lemma spelled_app a b : a <> [] -> b <> [] -> spelled (a ++ b) = (spelled a ++ "+" ++ spelled b)%string.
Proof.
  intros A B. unfold spelled. change (flat_map (fun p : list string * string => fst p ++ [snd p])) with words. rewrite words_app. apply cat_app; intro E; apply words_nil in E; contradiction.
Qed.
Lemma pure_last cs t n c : good_part (cs, t) ->
  gather_comps (rev (pieces_from (S n) n "" (spelled [(cs, t)]))) [] = Ok [c] ->
  exists pre, spelled [(cs, t)] = (pre ++ t)%string /\
    (pre = "" /\ pure_start c = n \/ exists pre', pre = (pre' ++ "+")%string /\ pure_start c = S n + String.length pre').
Proof.
  intros G H. assert (S0 : spelled [(cs, t)] = cat (cs ++ [t])) by (unfold spelled; cbn [flat_map fst snd]; rewrite app_nil_r; reflexivity).
  rewrite S0 in *. destruct G as (G1 & G2 & G3 & G4 & G5). cbn [fst snd] in *. destruct cs as [|k cs].
  - exists "". split; [reflexivity |]. left. split; [reflexivity |]. cbn [app String.concat] in H.
    rewrite pieces_from_word in H by assumption. cbn [rev app gather_comps String.append] in H.
    destruct (conv_same t) as (E & _). rewrite E, G2 in H. cbn [option_map List.length Nat.leb] in H.
    destruct (String.length t) as [|[|[|[|[|[|m]]]]]]; cbn [Nat.leb] in H; try discriminate H; injection H as <-; reflexivity.
  - exists (cat (k :: cs) ++ "+")%string. rewrite cat_app by discriminate. cbn [String.concat]. split; [rewrite sapp_assoc; reflexivity |].
    right. exists (cat (k :: cs)). split; [reflexivity |].
    assert (FP : Forall plusless (k :: cs)).
    { eapply Forall_impl; [| exact G1]. intros x X. cbn in X. destruct (conv_number x) eqn:K; [| congruence]. exact (proj1 (conv_short _ _ K)). }
    rewrite pieces_from_split in H by (assumption || discriminate).
    change (cat [t]) with t in H. rewrite (pieces_from_word t G3) in H.
    rewrite rev_app_distr in H. cbn [rev app] in H. 
    destruct (gather_part (pieces_from (S n) n "" (cat (k :: cs))) t (S n + String.length (cat (k :: cs))) []) as (s1 & Q).
    + rewrite pieces_concat_from by (assumption || discriminate). cbn [String.append]. exact G1.
    + exact G2.
    + exact G5.
    + cbn; lia.
    + rewrite rev_app_distr in Q. cbn [rev app] in Q. 
      change ("" ++ t)%string with t in H.
      rewrite Q in H. injection H as <-. reflexivity.
Qed.

Lemma sub_suffix0 a : forall b m, String.length b <= m -> substring (String.length a) m (a ++ b) = b.
Proof. induction a as [|c a IH]; intros b m L; [apply sub_all; exact L |]. cbn [String.length String.append substring]. apply IH. exact L. Qed.

Section DICT.
  Variable dict : string -> option string.
  Variable canon : string -> outcome (option string).
  Variable kind : string -> outcome wkind.
  Notation adv := (adv_translate dict canon kind).

  (* what one pattern gives *)
  Definition by_pattern (g : string -> Z -> tctx -> outcome string) (key rest : string) (ctx : tctx) : outcome (option string) :=
    let full := dict (key ++ ctx_letter ctx)%string in
    match (match full with Some t => Some t | None => dict key end) with
    | None => Ok None
    | Some trans =>
        match trans with
        | String "@" r =>
            match r with
            | "" => do t <- g rest (-48)%Z ctx; Ok (Some t)
            | String d _ => do t <- g rest (digit_value d) ctx; Ok (Some t)
            end
        | _ =>
            do s <- subst_base_in_pattern g trans rest;
            match full with
            | Some _ => Ok (Some s)
            | None => fix_trans_in_context s ctx (match dict (key ++ "n")%string with Some x => x | None => "" end)
            end
        end
    end.
  Lemma nth_last {A} (l : list A) x : nth_error (l ++ [x]) (List.length l) = Some x.
  Proof. rewrite nth_error_app2, Nat.sub_diag by lia. reflexivity. Qed.

  Lemma suffix_pattern g prec front lastp place ctx cs : front <> [] -> Forall good_part front -> good_part lastp -> List.length front <= 31 ->
    (1 <= place <= 5)%Z -> split_into_comps (spelled (front ++ [lastp])) = Ok cs ->
    lookup_template_match dict g prec true 1 (spelled (front ++ [lastp])) cs place ctx =
    by_pattern g ("*" ++ zdec (Z.of_nat prec) ++ "+" ++ snd lastp ++ zdec (converted (fst lastp) place))%string (spelled front) ctx.
  Proof.
    intros NF FF GL L P SP. destruct (split_two front [lastp]) as (ca & cb & c0 & SW & CA & CB & HD & ST & GB);
      [assumption | discriminate | assumption | constructor; [assumption | constructor] | cbn; lia |].
    rewrite SW in SP. injection SP as <-. inversion CB as [|? c ? ? Q CB']; subst. inversion CB'; subst. cbn [hd] in HD. subst c.
    unfold lookup_template_match.
    assert (comp_at (ca ++ [c0]) (Z.of_nat (List.length (ca ++ [c0])) - 1) = Ok c0) as ->.
    { unfold comp_at. rewrite app_length. cbn [List.length]. rewrite <- (Forall2_length _ _ _ CA).
      destruct (Z.ltb_spec (Z.of_nat (List.length front + 1) - 1) 0); [lia |]. destruct (Z.leb_spec 32 (Z.of_nat (List.length front + 1) - 1)); [lia |].
      cbn [orb]. replace (Z.to_nat (Z.of_nat (List.length front + 1) - 1)) with (List.length ca) by (rewrite <- (Forall2_length _ _ _ CA); lia).
      rewrite nth_last. reflexivity. }
    cbn [obind]. rewrite (place_ok _ _ _ Q P). cbn [obind].
    destruct lastp as (lc & lt). destruct (pure_last lc lt _ c0 GL GB) as (pre & E & PU). cbn [fst snd].
    set (W := spelled (front ++ _)).
    assert (substring (pure_start c0) (String.length W) W = ("+" ++ lt)%string) as ->.
    { unfold W. rewrite spelled_app by (assumption || discriminate). unfold part in *. rewrite E. destruct PU as [(-> & ->)|(pre' & -> & ->)].
      - apply sub_suffix0. rewrite !slen_app. cbn [String.length]. lia.
      - replace (spelled front ++ "+" ++ (pre' ++ "+") ++ lt)%string with ((spelled front ++ "+" ++ pre') ++ "+" ++ lt)%string by (rewrite !sapp_assoc; reflexivity).
        replace (S (String.length (spelled front)) + String.length pre') with (String.length (spelled front ++ "+" ++ pre')) by (rewrite !slen_app; cbn; lia).
        apply sub_suffix0. rewrite !slen_app. cbn [String.length]. lia. }
    assert (substring 0 (start c0) W = spelled front) as ->.
    { unfold W. rewrite ST. rewrite spelled_app by (assumption || discriminate). apply sub_prefix. }
    unfold by_pattern. rewrite !sapp_assoc. reflexivity.
  Qed.
  Lemma prefix_pattern g prec firstp back place ctx cs : back <> [] -> Forall good_part back -> good_part firstp -> List.length back <= 31 ->
    (1 <= place <= 5)%Z -> split_into_comps (spelled ([firstp] ++ back)) = Ok cs ->
    lookup_template_match dict g prec false 1 (spelled ([firstp] ++ back)) cs place ctx =
    by_pattern g ("*" ++ zdec (Z.of_nat prec) ++ spelled [firstp] ++ "+" ++ zdec (converted (fst firstp) place))%string (spelled back) ctx.
  Proof.
    intros NF FF GL L P SP. destruct (split_two [firstp] back) as (ca & cb & c0 & SW & CA & CB & HD & ST & GB);
      [discriminate | assumption | constructor; [assumption | constructor] | assumption | cbn; lia |].
    rewrite SW in SP. injection SP as <-. inversion CA as [|? c ? ? Q CA']; subst. inversion CA'; subst.
    assert (exists cs', cb = c0 :: cs') as (cs' & ->).
    { pose proof (Forall2_length _ _ _ CB) as LL. destruct cb; [destruct back; [congruence | discriminate LL] |]. cbn in HD. subst. eauto. }
    unfold lookup_template_match. change (comp_at ([c] ++ c0 :: cs') 1) with (@Ok component c0). change (comp_at ([c] ++ c0 :: cs') (1 - 1)) with (@Ok component c).
    cbn [obind]. rewrite (place_ok _ _ _ Q P). cbn [obind]. rewrite ST. rewrite spelled_app by (assumption || discriminate).
    assert (substring 0 (String.length (spelled [firstp]) + 1) (spelled [firstp] ++ "+" ++ spelled back) = (spelled [firstp] ++ "+")%string) as ->.
    { rewrite <- sapp_assoc. replace (String.length (spelled [firstp]) + 1) with (String.length (spelled [firstp] ++ "+")) by (rewrite slen_app; reflexivity). apply sub_prefix. }
    rewrite sub_suffix by (rewrite !slen_app; cbn; lia).
    unfold by_pattern. rewrite !sapp_assoc. reflexivity.
  Qed.

  Lemma absent_none g key rest ctx : absent dict ctx key -> by_pattern g key rest ctx = Ok None.
  Proof. intros (A & B). unfold by_pattern. cbv zeta. rewrite A, B. reflexivity. Qed.

  (* the first pattern that is there *)
  Definition cand (front : list part) (firstp lastp : part) (back : list part) (place : Z) (x : nat * bool) : string * string :=
    let (prec, suffix) := x in
    if suffix : bool then (("*" ++ zdec (Z.of_nat prec) ++ "+" ++ snd lastp ++ zdec (converted (fst lastp) place))%string, spelled front)
    else (("*" ++ zdec (Z.of_nat prec) ++ spelled [firstp] ++ "+" ++ zdec (converted (fst firstp) place))%string, spelled back).
  Lemma cands front firstp lastp back place : patterns_for front firstp lastp back place = map (cand front firstp lastp back place) rounds.
  Proof. reflexivity. Qed.
  Lemma try_first g l orig cs place ctx front firstp lastp back t l1 x l2 :
    (forall prec s, lookup_template_match dict g prec s 1 orig cs place ctx =
       let (key, rest) := cand front firstp lastp back place (prec, s) in by_pattern g key rest ctx) ->
    l = l1 ++ x :: l2 -> Forall (fun y => absent dict ctx (fst (cand front firstp lastp back place y))) l1 ->
    (let (key, rest) := cand front firstp lastp back place x in by_pattern g key rest ctx) = Ok (Some t) -> t <> "-" ->
    try_templates dict g l orig cs place ctx = Ok (Some t).
  Proof.
    intros H -> F B N. induction F as [|(p & s) l1 A F IH]; cbn [app try_templates].
    - destruct x as (p & s). rewrite H, B. cbn [obind]. destruct (String.eqb_spec t "-"); [contradiction | reflexivity].
    - rewrite H. destruct (cand front firstp lastp back place (p, s)) as (key & rest) eqn:E. cbn [fst] in A.
      rewrite absent_none by exact A. cbn [obind]. exact IH.
  Qed.

  Lemma pattern_gloss f w ps front firstp lastp back place ctx before key rest after t :
    canon w = Ok (Some (spelled ps)) -> ps = front ++ [lastp] -> ps = firstp :: back -> front <> [] ->
    Forall good_part ps -> List.length ps <= 32 -> (1 <= place <= 5)%Z ->
    entry_for dict (w, place, ctx) = None -> dict w = None ->
    patterns_for front firstp lastp back place = before ++ (key, rest) :: after ->
    Forall (fun y => absent dict ctx (fst y)) before ->
    by_pattern (adv f) key rest ctx = Ok (Some t) -> t <> "-" ->
    adv (S f) w place ctx = Ok t.
  Proof.
    intros C E1 E2 NF G L P EN D PF AB B N. rewrite no_entry by (assumption || lia). unfold attempt_pattern_match. rewrite C. cbn [obind].
    assert (GF : Forall good_part front /\ good_part lastp) by (rewrite E1 in G; apply Forall_app in G; destruct G as (A1 & A2); inversion A2; auto).
    assert (GB : good_part firstp /\ Forall good_part back) by (rewrite E2 in G; inversion G; auto).
    assert (LF : List.length front <= 31) by (rewrite E1, app_length in L; cbn in L; lia).
    assert (LB : List.length back <= 31) by (rewrite E2 in L; cbn in L; lia).
    assert (NB : back <> []).
    { intros ->. rewrite E2 in E1. destruct front as [|a [|b fr]]; [congruence | discriminate E1 | discriminate E1]. }
    destruct (split_spelled ps G L) as (cs & SP & CS). rewrite SP.
    assert (HP : has "+" (spelled ps) = true).
    { rewrite E1, spelled_app by (assumption || discriminate). rewrite !has_app. cbn. apply orb_true_r. }
    rewrite HP. cbn [obind]. pose proof (Forall2_length _ _ _ CS) as LL.
    assert (try_templates dict (adv f) rounds (spelled ps) cs place ctx = Ok (Some t)) as Q.
    { rewrite cands in PF. symmetry in PF. apply eq_sym, map_eq_app in PF. destruct PF as (l1 & l2 & RO & M1 & M2).
      destruct l2 as [|x l2]; [discriminate M2 |]. cbn [map] in M2. injection M2 as M2 _.
      apply (try_first _ rounds _ _ _ _ front firstp lastp back t l1 x l2); [| exact RO | | rewrite M2; exact B | exact N].
      - intros prec s. unfold cand. destruct s; cbn iota.
        + rewrite E1 in *. apply suffix_pattern; tauto.
        + rewrite E2 in *. change (firstp :: back) with ([firstp] ++ back) in *. apply prefix_pattern; tauto.
      - rewrite <- M1 in AB. rewrite Forall_map in AB. exact AB. }
    destruct cs as [|c [|c' cs]]; [rewrite Q; reflexivity | | rewrite Q; reflexivity].
    exfalso. rewrite E2 in LL. cbn in LL. destruct back; [congruence | discriminate LL].
  Qed.

  Lemma no_pattern f ps front firstp lastp back place ctx cs :
    ps = front ++ [lastp] -> ps = firstp :: back -> front <> [] ->
    Forall good_part ps -> List.length ps <= 32 -> (1 <= place <= 5)%Z ->
    Forall (fun y => absent dict ctx (fst y)) (patterns_for front firstp lastp back place) ->
    split_into_comps (spelled ps) = Ok cs -> try_templates dict (adv f) rounds (spelled ps) cs place ctx = Ok None.
  Proof.
    intros E1 E2 NF G L P AB SP.
    assert (GF : Forall good_part front /\ good_part lastp) by (rewrite E1 in G; apply Forall_app in G; destruct G as (A1 & A2); inversion A2; auto).
    assert (GB : good_part firstp /\ Forall good_part back) by (rewrite E2 in G; inversion G; auto).
    assert (LF : List.length front <= 31) by (rewrite E1, app_length in L; cbn in L; lia).
    assert (LB : List.length back <= 31) by (rewrite E2 in L; cbn in L; lia).
    assert (NB : back <> []).
    { intros ->. rewrite E2 in E1. destruct front as [|a [|b fr]]; [congruence | discriminate E1 | discriminate E1]. }
    rewrite cands, Forall_map in AB. induction AB as [|(p & s) l A AB IH]; [reflexivity |]. cbn [try_templates].
    assert (lookup_template_match dict (adv f) p s 1 (spelled ps) cs place ctx = Ok None) as ->; [| exact IH].
    clear IH AB. unfold cand in A. destruct s; cbn [fst] in A.
    - rewrite E1 in *. rewrite suffix_pattern by tauto. apply absent_none. exact A.
    - rewrite E2 in *. change (firstp :: back) with ([firstp] ++ back) in *. rewrite prefix_pattern by tauto. apply absent_none. exact A.
  Qed.

  (* the three kinds of pattern *)
  Lemma subst_expand g base t s : expand (g base) t s -> subst_base_in_pattern g t base = Ok s.
  Proof.
    induction 1 as [|c r s N _ IH|d c r t s T _ IH]; [reflexivity | |].
    - cbn [subst_base_in_pattern]. rewrite (proj2 (Ascii.eqb_neq _ _) N), IH. cbn [obind].
      destruct c as [[] [] [] [] [] [] [] []]; try reflexivity. destruct N. reflexivity.
    - cbn [subst_base_in_pattern]. unfold digit_value. unfold use_of in T. rewrite T. cbn [obind]. rewrite IH. reflexivity.
  Qed.
  Lemma by_redirect g key rest ctx d r t : dict (key ++ ctx_letter ctx)%string = Some (String "@" (String d r)) \/
      dict (key ++ ctx_letter ctx)%string = None /\ dict key = Some (String "@" (String d r)) ->
    g rest (Z.of_N (N_of_ascii d) - 48)%Z ctx = Ok t -> by_pattern g key rest ctx = Ok (Some t).
  Proof. intros H G. unfold by_pattern, digit_value. cbv zeta. destruct H as [-> | (-> & ->)]; rewrite G; reflexivity. Qed.
  Lemma by_full g key rest ctx t s : dict (key ++ ctx_letter ctx)%string = Some t -> (forall r, t <> String "@" r) -> expand (g rest) t s ->
    by_pattern g key rest ctx = Ok (Some s).
  Proof.
    intros D N X. unfold by_pattern. cbv zeta. rewrite D. rewrite (subst_expand _ _ _ _ X). cbn [obind].
    destruct t as [|c r]; [reflexivity |]. destruct c as [[] [] [] [] [] [] [] []]; try reflexivity. exfalso. exact (N r eq_refl).
  Qed.
  Lemma by_class g key rest ctx t s y : dict (key ++ ctx_letter ctx)%string = None -> dict key = Some t -> (forall r, t <> String "@" r) ->
    expand (g rest) t s -> fix_trans_in_context s ctx (match dict (key ++ "n")%string with Some x => x | None => "" end) = Ok (Some y) ->
    by_pattern g key rest ctx = Ok (Some y).
  Proof.
    intros D D' N X F. unfold by_pattern. cbv zeta. rewrite D, D'. rewrite (subst_expand _ _ _ _ X). cbn [obind]. rewrite F.
    destruct t as [|c r]; [reflexivity |]. destruct c as [[] [] [] [] [] [] [] []]; try reflexivity. exfalso. exact (N r eq_refl).
  Qed.
End DICT.

Lemma by_parts dict cult w front firstp lastp back place ctx f gs :
  by_patterns dict w front firstp lastp back place ctx -> (letter_in "+" w \/ kind cult w = Ok K_LUJVO) ->
  Forall (fun y => absent dict ctx (fst y)) (patterns_for front firstp lastp back place) ->
  glosses (gloss dict cult f) (firstp :: back) place gs ->
  gloss dict cult (S f) w place ctx = Ok (String.concat "-" gs ++ "??")%string.
Proof.
  intros [C E NF G L P EN D] K AB GS.
  eapply (unknown_compound dict canon (kind cult)); eauto.
  - split; [| exact L]. destruct front; [congruence |]. rewrite E, app_length. cbn. lia.
  - destruct K as [K|K]; [left; apply has_in; exact K | right; exact K].
  - intros cs SP. eapply (no_pattern dict canon (kind cult)); eauto.
Qed.
Lemma pattern_redirect dict cult w front firstp lastp back place ctx f key rest d r t :
  by_patterns dict w front firstp lastp back place ctx ->
  chosen dict ctx (patterns_for front firstp lastp back place) key rest ->
  (dict (key ++ ctx_letter ctx)%string = Some (String "@" (String d r)) \/
   dict (key ++ ctx_letter ctx)%string = None /\ dict key = Some (String "@" (String d r))) ->
  gloss dict cult f rest (Z.of_N (N_of_ascii d) - 48)%Z ctx = Ok t -> t <> "-" ->
  gloss dict cult (S f) w place ctx = Ok t.
Proof.
  intros [C E NF G L P EN D] (before & after & PF & AB) K T N.
  eapply (pattern_gloss dict canon (kind cult)); eauto. eapply by_redirect; eauto.
Qed.
Lemma pattern_exact dict cult w front firstp lastp back place ctx f key rest x t :
  by_patterns dict w front firstp lastp back place ctx ->
  chosen dict ctx (patterns_for front firstp lastp back place) key rest ->
  dict (key ++ ctx_letter ctx)%string = Some x -> (forall r, x <> String "@" r) ->
  expand (gloss dict cult f rest) x t -> t <> "-" ->
  gloss dict cult (S f) w place ctx = Ok t.
Proof.
  intros [C E NF G L P EN D] (before & after & PF & AB) K NR T N.
  eapply (pattern_gloss dict canon (kind cult)); eauto. eapply by_full; eauto.
Qed.
Lemma pattern_class dict cult w front firstp lastp back place ctx f key rest class x t b form a :
  by_patterns dict w front firstp lastp back place ctx ->
  chosen dict ctx (patterns_for front firstp lastp back place) key rest ->
  dict (key ++ ctx_letter ctx)%string = None -> dict key = Some (String class (String ";" x)) -> class <> "%"%char ->
  expand (gloss dict cult f rest) x t -> table class ctx = Some (b, form, a) -> star_ok (table class ctx) t ->
  exists y, inflect form t y /\
    let full := (b ++ (match dict (key ++ "n")%string with
                       | Some noun => if uses_noun class ctx && negb (String.eqb noun "") then noun else y
                       | None => y end) ++ a)%string in
    full <> "-" -> gloss dict cult (S f) w place ctx = Ok full.
Proof.
  intros [C E NF G L P EN D] (before & after & PF & AB) K K' NC T TB ST.
  pose proof (table_ok class t ctx (match dict (key ++ "n")%string with Some n => n | None => "" end) ST) as Q. rewrite TB in Q.
  destruct Q as (y & I & Q). exists y. split; [exact I |]. cbv zeta. intro N.
  eapply (pattern_gloss dict canon (kind cult)); eauto.
  apply (by_class dict (gloss dict cult f) key rest ctx (String class (String ";" x)) (String class (String ";" t))); auto.
  - intros r X. injection X as X _. subst class. discriminate TB.
  - apply ex_char; [exact NC |]. apply ex_char; [discriminate | exact T].
  - rewrite Q. do 4 f_equal. destruct (dict (key ++ "n")%string) as [noun|]; [reflexivity |]. cbn [String.eqb negb]. rewrite andb_false_r. reflexivity.
Qed.
