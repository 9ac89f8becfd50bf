From Coq Require Import String Ascii List NArith ZArith Bool Arith Lia.
From Verif Require Import Base DictModel TransModel TransSpec TransProofs TransProofs2.
Import ListNotations.
Open Scope string_scope.
Open Scope list_scope.

Lemma Forall2_length {A B} (R : A -> B -> Prop) a b : Forall2 R a b -> List.length a = List.length b.
Proof. induction 1; cbn; congruence. Qed.
Definition plusless (s : string) : Prop := ~ letter_in "+" s.
Lemma plusless_cons c s : plusless (String c s) <-> c <> "+"%char /\ plusless s.
Proof. unfold plusless, letter_in. cbn. split; [intro H; split; [intro E; subst; tauto | tauto] | intros (A & B) [C|C]; congruence]. Qed.

Lemma pieces_from_word s : plusless s -> forall pos at0 cur, pieces_from pos at0 cur s = [(at0, (cur ++ s)%string)].
Proof.
  induction s as [|c s IH]; intros N pos at0 cur; cbn; [rewrite sapp_nil; reflexivity |].
  apply plusless_cons in N. destruct N as (C & N). rewrite (proj2 (Ascii.eqb_neq _ _) C), (IH N), sapp_assoc. reflexivity.
Qed.
Lemma pieces_from_plus s r : plusless s -> forall pos at0 cur,
  pieces_from pos at0 cur (s ++ String "+" r) = (at0, (cur ++ s)%string) :: pieces_from (S (pos + String.length s)) (pos + String.length s) "" r.
Proof.
  induction s as [|c s IH]; intros N pos at0 cur; cbn; [rewrite sapp_nil, Nat.add_0_r; reflexivity |].
  apply plusless_cons in N. destruct N as (C & N). rewrite (proj2 (Ascii.eqb_neq _ _) C), (IH N), sapp_assoc. cbn.
  rewrite <- !plus_n_Sm. reflexivity.
Qed.
Lemma pieces_concat_from l : l <> [] -> Forall plusless l -> forall pos at0 cur,
  map snd (pieces_from pos at0 cur (String.concat "+" l)) = match l with [] => [] | a :: l => (cur ++ a)%string :: l end.
Proof.
  induction l as [|a l IH]; intros N F pos at0 cur; [congruence |]. inversion F; subst. destruct l as [|b l].
  - cbn [String.concat]. rewrite pieces_from_word by assumption. reflexivity.
  - change (String.concat "+" (a :: b :: l)) with (a ++ String "+" (String.concat "+" (b :: l)))%string.
    rewrite pieces_from_plus by assumption. cbn [map snd]. rewrite IH by (assumption || discriminate). reflexivity.
Qed.
Lemma pieces_concat l : l <> [] -> Forall plusless l -> hd "" l <> "" -> map snd (pieces (String.concat "+" l)) = l.
Proof.
  intros N F H. destruct l as [|a l]; [congruence |]. cbn in H. destruct a as [|c a]; [congruence |].
  assert (exists r, String.concat "+" (String c a :: l) = String c r) as (r & E) by (destruct l; cbn; eauto).
  pose proof (pieces_concat_from (String c a :: l) N F 0 0 "") as P. rewrite E in *. unfold pieces.
  inversion F; subst. apply plusless_cons in H2. destruct H2 as (C & _). rewrite (proj2 (Ascii.eqb_neq _ _) C). exact P.
Qed.

Lemma gather_app a b acc : gather_comps (a ++ b) acc = (do x <- gather_comps a acc; gather_comps b x).
Proof.
  revert acc. induction a as [|(p & q) a IH]; intro acc; [reflexivity |]. cbn [gather_comps app].
  destruct (conversion q) as [k|]; [destruct acc as [|[s0 ps t pl] acc]; [reflexivity | apply IH] |].
  destruct (Nat.leb 32 (List.length acc)); [reflexivity |]. destruct (Nat.leb 6 (String.length q)); [reflexivity | apply IH].
Qed.
Lemma conv_same q : conversion q = option_map Z.to_nat (conv_number q) /\ (forall k, conv_number q = Some k -> (2 <= k <= 5)%Z).
Proof.
  unfold conversion, conv_number. destruct (String.eqb q "se"), (String.eqb q "te"), (String.eqb q "ve"), (String.eqb q "xe");
    (split; [reflexivity | intros k E; inversion E; lia]).
Qed.
Definition five : list Z := [1; 2; 3; 4; 5]%Z.
Lemma exchange_map g k : (2 <= k <= 5)%Z -> exchange (Z.to_nat k) (map g five) = map (fun i => g (swap k i)) five.
Proof. intro H. assert (k = 2 \/ k = 3 \/ k = 4 \/ k = 5)%Z as [->|[->|[->| ->]]] by lia; reflexivity. Qed.
Lemma gather_convs cs : Forall (fun c => conv_number c <> None) (map snd cs) -> forall s0 p0 t acc,
  exists s1, gather_comps (rev cs) (Comp s0 p0 t five :: acc) = Ok (Comp s1 p0 t (map (converted (map snd cs)) five) :: acc).
Proof.
  induction cs as [|(p & c) cs IH]; intros F s0 p0 t acc; [exists s0; reflexivity |]. cbn [map snd] in F. inversion F; subst.
  cbn [rev]. rewrite gather_app. destruct (IH H2 s0 p0 t acc) as (s1 & ->). cbn [obind gather_comps].
  destruct (conv_same c) as (E & B). destruct (conv_number c) as [k|] eqn:K; [| congruence]. rewrite E. cbn [option_map].
  exists p. rewrite exchange_map by (apply B; reflexivity). cbn [map snd converted]. rewrite K. reflexivity.
Qed.
Lemma gather_part cs w p acc : Forall (fun c => conv_number c <> None) (map snd cs) -> conv_number w = None -> String.length w <= 5 ->
  List.length acc < 32 ->
  exists s1, gather_comps (rev (cs ++ [(p, w)])) acc = Ok (Comp s1 p w (map (converted (map snd cs)) five) :: acc).
Proof.
  intros F C L A. rewrite rev_app_distr. cbn [rev app]. cbn [gather_comps]. destruct (conv_same w) as (E & _). rewrite E, C. cbn [option_map].
  rewrite (proj2 (Nat.leb_gt _ _)) by lia. rewrite (proj2 (Nat.leb_gt _ _)) by lia. apply gather_convs. exact F.
Qed.

Definition comp_of (p : part) (c : component) : Prop := text c = snd p /\ places c = map (converted (fst p)) five.
Definition words (ps : list part) : list string := flat_map (fun p => fst p ++ [snd p]) ps.
Lemma gather_parts ps : Forall good_part ps -> forall l, map snd l = words ps -> forall acc, List.length ps + List.length acc <= 32 ->
  exists cs, gather_comps (rev l) acc = Ok (cs ++ acc) /\ Forall2 comp_of ps cs.
Proof.
  induction ps as [|p ps IH]; intros F l E acc L.
  - destruct l; [| discriminate E]. exists []. split; [reflexivity | constructor].
  - inversion F as [|? ? G F']; subst. unfold words in E. cbn [flat_map] in E. rewrite <- app_assoc in E.
    apply map_eq_app in E. destruct E as (l1 & l2 & -> & E1 & E2). cbn [app] in E2.
    destruct l2 as [|(pos & w) l2]; [discriminate E2 |]. cbn [map snd] in E2. injection E2 as E2 E3.
    destruct (IH F' l2 E3 acc) as (cs & R & C); [cbn in L; lia |].
    replace (l1 ++ (pos, w) :: l2) with ((l1 ++ [(pos, w)]) ++ l2) by (rewrite <- app_assoc; reflexivity).
    rewrite rev_app_distr, gather_app, R. cbn [obind]. destruct G as (G1 & G2 & G3 & G4 & G5). subst w.
    destruct (gather_part l1 (snd p) pos (cs ++ acc)) as (s1 & Q).
    + rewrite E1. exact G1.
    + exact G2.
    + exact G5.
    + rewrite app_length, <- (Forall2_length _ _ _ C). cbn in L. lia.
    + rewrite Q. rewrite E1. exists (Comp s1 pos (snd p) (map (converted (fst p)) five) :: cs). split; [reflexivity |].
      constructor; [split; reflexivity | exact C].
Qed.
Lemma conv_short c k : conv_number c = Some k -> plusless c /\ c <> "".
Proof.
  unfold conv_number. destruct (String.eqb c "se") eqn:A; [apply String.eqb_eq in A; subst |
   destruct (String.eqb c "te") eqn:B; [apply String.eqb_eq in B; subst |
   destruct (String.eqb c "ve") eqn:C; [apply String.eqb_eq in C; subst |
   destruct (String.eqb c "xe") eqn:D; [apply String.eqb_eq in D; subst | discriminate]]]]; intros _;
   (split; [apply has_not; reflexivity | discriminate]).
Qed.
Lemma good_words p : good_part p -> Forall (fun s => plusless s /\ s <> "") (fst p ++ [snd p]).
Proof.
  intros (G1 & G2 & G3 & G4 & G5). apply Forall_app. split; [| constructor; [split; assumption | constructor]].
  eapply Forall_impl; [| exact G1]. intros c N. cbn in N. destruct (conv_number c) eqn:K; [eapply conv_short; eauto | congruence].
Qed.
Lemma words_good ps : Forall good_part ps -> Forall (fun s => plusless s /\ s <> "") (words ps).
Proof. induction 1; [constructor |]. unfold words. cbn [flat_map]. apply Forall_app. split; [apply good_words; assumption | assumption]. Qed.
Lemma pieces_words l : Forall (fun s => plusless s /\ s <> "") l -> map snd (pieces (String.concat "+" l)) = l.
Proof.
  intro F. destruct l as [|a l]; [reflexivity |]. apply pieces_concat; [discriminate | eapply Forall_impl; [| exact F]; intros x X; exact (proj1 X) |].
  inversion F. cbn. tauto.
Qed.
Lemma split_spelled ps : Forall good_part ps -> List.length ps <= 32 ->
  exists cs, split_into_comps (spelled ps) = Ok cs /\ Forall2 comp_of ps cs.
Proof.
  intros F L. destruct (gather_parts ps F (pieces (spelled ps))) with (acc := @nil component) as (cs & E & C).
  - apply pieces_words. apply words_good. exact F.
  - cbn. lia.
  - exists cs. rewrite app_nil_r in E. auto.
Qed.
Lemma place_ok p c i : comp_of p c -> (1 <= i <= 5)%Z -> place_at c i = Ok (converted (fst p) i).
Proof.
  intros (_ & E) H. unfold place_at. rewrite E. assert (i = 1 \/ i = 2 \/ i = 3 \/ i = 4 \/ i = 5)%Z as [->|[->|[->|[->| ->]]]] by lia; reflexivity.
Qed.

Section DICT.
  Variable dict : string -> option string.
  Variable canon : string -> outcome (option string).
  Variable kind : string -> outcome wkind.
  Notation adv := (adv_translate dict canon kind).

  Lemma no_entry f w i ctx : (1 <= i)%Z -> entry_for dict (w, i, ctx) = None -> dict w = None ->
    adv (S f) w i ctx =
      (do m <- attempt_pattern_match dict canon (adv f) w i ctx;
       match m with
       | Some t => Ok t
       | None => do u <- translate_unknown canon kind (adv f) w i ctx;
                 match u with Some t => Ok (t ++ "??")%string | None => Ok "??" end
       end).
  Proof.
    intros H E D. cbn [adv_translate]. unfold adv_body, entry_for, asked in *. destruct (Z.eqb_spec i 0); [lia |].
    rewrite sapp_assoc. destruct (dict (w ++ zdec i ++ ctx_letter ctx)); [discriminate E |]. rewrite E, D. reflexivity.
  Qed.
  Lemma has_spelled cs t : cs <> [] -> has "+" (spelled [(cs, t)]) = true.
  Proof.
    intro N. apply has_in. unfold spelled. cbn [flat_map fst snd app]. rewrite app_nil_r. destruct cs as [|c cs]; [congruence |].
    assert (exists r, String.concat "+" ((c :: cs) ++ [t]) = (c ++ String "+" r)%string) as (r & ->) by (destruct cs; cbn; eauto).
    unfold letter_in. rewrite loas_app. apply in_or_app. right. left. reflexivity.
  Qed.
  (* one word with conversions *)
  Lemma converted_gloss f w cs t i ctx : canon w = Ok (Some (spelled [(cs, t)])) -> good_part (cs, t) -> cs <> [] -> (1 <= i <= 5)%Z ->
    entry_for dict (w, i, ctx) = None -> dict w = None ->
    adv (S f) w i ctx = adv f t (converted cs i) ctx.
  Proof.
    intros C G N H E D. rewrite no_entry by (assumption || lia). unfold attempt_pattern_match. rewrite C. cbn [obind].
    rewrite has_spelled by assumption. destruct (split_spelled [(cs, t)]) as (l & -> & F); [constructor; [assumption | constructor] | cbn; lia |].
    inversion F as [|? ? ? ? Q F']; subst. inversion F'; subst. cbn [obind]. rewrite (place_ok _ _ i Q H). cbn [obind fst].
    destruct Q as (-> & _). cbn [snd]. destruct (adv f t (converted cs i) ctx); reflexivity.
  Qed.

  (* several words, no template *)
  Definition compound_gloss (u : tctx) (f : nat) (ps : list part) (i : Z) (gs : list string) : Prop :=
    exists init lastp gi gl, ps = init ++ [lastp] /\ gs = gi ++ [gl] /\
      Forall2 (fun p g => adv f (snd p) (converted (fst p) 1) TCX_QUAL = Ok g) init gi /\
      adv f (snd lastp) (converted (fst lastp) i) u = Ok gl.
  Lemma glue_ok u f ps cs i gs : Forall2 comp_of ps cs -> compound_gloss u f ps i gs -> (1 <= i <= 5)%Z ->
    glue_comps (adv f) cs i u = Ok (String.concat "-" gs).
  Proof.
    intros C (init & lastp & gi & gl & -> & -> & F & GL) H. revert cs C. induction F as [|p g init gi G F IH]; intros cs C.
    - inversion C as [|? c ? ? Q C']; subst. inversion C'; subst. cbn [glue_comps app]. rewrite (place_ok _ _ i Q H). cbn [obind].
      destruct Q as (-> & _). rewrite GL. reflexivity.
    - inversion C as [|? c ? cs' Q C']; subst. assert (exists d ds, cs' = d :: ds) as (d & ds & ->).
      { pose proof (Forall2_length _ _ _ C') as LL. rewrite app_length in LL. cbn in LL. destruct cs'; [cbn in LL; lia | eauto]. }
      cbn [glue_comps]. rewrite (place_ok _ _ 1 Q) by lia. cbn [obind]. destruct Q as (-> & _). rewrite G. cbn [obind].
      specialize (IH _ C'). cbn [glue_comps] in IH. rewrite IH. cbn [obind app].
      assert (exists b bs, gi ++ [gl] = b :: bs) as (b & bs & E) by (destruct gi; cbn; eauto). rewrite E. reflexivity.
  Qed.
  Lemma unknown_compound f w ps i ctx gs : canon w = Ok (Some (spelled ps)) -> Forall good_part ps -> 2 <= List.length ps <= 32 ->
    (has "+" w = true \/ kind w = Ok K_LUJVO) -> (1 <= i <= 5)%Z ->
    entry_for dict (w, i, ctx) = None -> dict w = None ->
    (forall cs, split_into_comps (spelled ps) = Ok cs -> try_templates dict (adv f) rounds (spelled ps) cs i ctx = Ok None) ->
    compound_gloss TCX_NOUN f ps i gs -> adv (S f) w i ctx = Ok (String.concat "-" gs ++ "??")%string.
  Proof.
    intros C G L K H E D T CG. rewrite no_entry by (assumption || lia).
    destruct (split_spelled ps) as (cs & S & F); [assumption | lia |]. pose proof (Forall2_length _ _ _ F) as LL.
    assert (attempt_pattern_match dict canon (adv f) w i ctx = Ok None) as ->.
    { unfold attempt_pattern_match. rewrite C. cbn [obind]. destruct (has "+" (spelled ps)); [| reflexivity]. rewrite S. cbn [obind].
      destruct cs as [|c [|c' cs]]; [cbn in LL; lia | cbn in LL; lia |]. apply T. exact S. }
    cbn [obind]. assert (translate_unknown canon kind (adv f) w i ctx = translate_lujvo canon (adv f) w i) as ->.
    { unfold translate_unknown. destruct (has "+" w); [reflexivity |]. destruct K as [K|K]; [discriminate K |]. rewrite K. reflexivity. }
    unfold translate_lujvo. rewrite C. cbn [obind]. rewrite S. cbn [obind]. rewrite (proj2 (Nat.ltb_ge _ _)) by lia.
    rewrite (glue_ok TCX_NOUN f ps cs i gs F CG H). reflexivity.
  Qed.
End DICT.
