(* The word glosser: runs of cmavo, continued. *)
From Coq Require Import String Ascii List NArith ZArith Bool Arith Lia.
From Verif Require Import Base LayoutModel LujvoSpec CmModel CmSpec CmProofs.
Import ListNotations.
Open Scope list_scope.

Definition glue1 (o t : txt) : txt := o ++ (if empty o then [] else lit " ") ++ t.
Definition glue_all (o : txt) (ts : list txt) : txt := fold_left glue1 ts o.
Lemma glue_mono ts : forall o, List.length o <= List.length (glue_all o ts).
Proof.
  induction ts as [|t ts IH]; intro o; [reflexivity |]. cbn [glue_all fold_left]. unfold glue_all in IH. etransitivity; [| apply IH]. unfold glue1. rewrite app_length. lia.
Qed.
Lemma glue_spaced ts : Forall (fun t => t <> []) ts -> forall o, o <> [] -> glue_all o ts = match ts with [] => o | _ => o ++ lit " " ++ spaced ts end.
Proof.
  induction ts as [|t ts IH]; intros F o N; [reflexivity |]. inversion F as [|? ? Nt F']; subst. cbn [glue_all fold_left]. unfold glue_all in IH.
  assert (G : glue1 o t = o ++ lit " " ++ t) by (unfold glue1; destruct o; [contradiction | reflexivity]).
  rewrite G, IH; [| exact F' | destruct o; [contradiction | discriminate]]. destruct ts as [|t' ts]; [reflexivity |]. cbn [spaced]. rewrite <- !app_assoc. reflexivity.
Qed.
Lemma glue_all_spaced ts : Forall (fun t => t <> []) ts -> glue_all [] ts = spaced ts.
Proof.
  intro F. destruct ts as [|t ts]; [reflexivity |]. inversion F as [|? ? Nt F']; subst. cbn [glue_all fold_left]. change (glue1 [] t) with t.
  pose proof (glue_spaced ts F' t Nt) as G. unfold glue_all in G. rewrite G. destruct ts; reflexivity.
Qed.
Lemma glued_ok o t ts : (N.of_nat (List.length (glue_all o (t :: ts))) < big)%N -> glued o t = Ok (glue1 o t).
Proof.
  intro H. unfold glued. apply fit_ok. cbn [glue_all fold_left] in H. pose proof (glue_mono ts (glue1 o t)) as M. unfold glue_all in M. fold (glue1 o t). lia.
Qed.
Lemma skip_units v us : forallb vowelish v = true -> Forall cmavo us -> skip_vowels (v ++ concat us) = List.length v.
Proof.
  intros V F. induction v as [|c v IH].
  - cbn [app List.length]. destruct us as [|u us]; [reflexivity |]. inversion F as [|? ? (c & w & -> & C & _) _]; subst. cbn [concat app skip_vowels]. rewrite (cons_stops _ C). reflexivity.
  - cbn [forallb] in V. apply andb_true_iff in V. destruct V as [V1 V2]. cbn [app skip_vowels List.length]. rewrite (vowel_chr _ V1), IH by exact V2. reflexivity.
Qed.
Lemma at_units A us : Forall cmavo us -> exists c, at_ (A ++ concat us) (List.length A) = Ok c /\ Ascii.eqb c "." = false.
Proof.
  intro F. destruct us as [|u us]; [cbn [concat]; rewrite app_nil_r; exists nul; split; [apply at_end | reflexivity] |].
  inversion F as [|? ? (c & w & -> & C & _) _]; subst. cbn [concat app]. exists c. split; [apply at_app | apply cons_dot; exact C].
Qed.
Lemma units_le us : Forall cmavo us -> List.length us <= List.length (concat us).
Proof. induction 1 as [|u us C _ IH]; [cbn; lia |]. cbn [concat List.length]. rewrite app_length. pose proof (cmavo_pos _ C). lia. Qed.

Section FRAGMENTS.
  Variable transfn : txt -> outcome (option txt).
  Variable look : txt -> option txt.
  Definition asks (us : list txt) : Prop := forall a b c, us = a ++ b ++ c -> b <> [] -> transfn (concat b) = Ok (look (concat b)).

  Lemma outer_units n : forall us A out f, List.length us <= n -> Forall cmavo us -> List.length (concat us) < f -> asks us ->
    exists ts, shown look us ts /\ ((N.of_nat (List.length (glue_all out ts)) < big)%N -> outer f transfn (A ++ concat us) (List.length A) out = Ok (glue_all out ts)).
  Proof.
    induction n as [|n IH]; intros us A out f L F LF AK.
    - destruct us; [| cbn in L; lia]. exists []. split; [constructor |]. intros _. destruct f as [|f]; [lia |]. cbn [concat outer]. rewrite app_nil_r, Nat.ltb_irrefl. reflexivity.
    - destruct f as [|f]; [lia |]. destruct us as [|u us].
      { exists []. split; [constructor |]. intros _. cbn [concat outer]. rewrite app_nil_r, Nat.ltb_irrefl. reflexivity. }
      destruct (inner_units transfn look (u :: us) A [] (S (List.length (A ++ concat (u :: us)))) F) as (o & FO & E).
      { pose proof (units_le _ F). rewrite app_length. lia. }
      { intros a b Q N. apply (AK [] a b); [exact Q | exact N]. }
      rewrite app_nil_r in E. rewrite <- app_length in E.
      assert (P : 0 < List.length (concat (u :: us))) by (apply concat_pos; [exact F | discriminate]).
      assert (OUT : forall o', outer (S f) transfn (A ++ concat (u :: us)) (List.length A) o' = 
         do x <- inner (S (List.length (A ++ concat (u :: us)))) transfn (A ++ concat (u :: us)) (List.length A) (List.length (A ++ concat (u :: us)));
          match x with
          | Some (e, t) => do out <- glued o' t; outer f transfn (A ++ concat (u :: us)) e out
          | None =>
              do out <- glued o' (lit "?");
              let p := S (List.length A) + skip_vowels (skipn (S (List.length A)) (A ++ concat (u :: us))) in
              do c <- at_ (A ++ concat (u :: us)) p;
              outer f transfn (A ++ concat (u :: us)) (if Ascii.eqb c "." then S p else p) out
          end).
      { intro o'. cbn [outer]. destruct (Nat.ltb_spec (List.length A) (List.length (A ++ concat (u :: us)))) as [_|X]; [reflexivity | rewrite app_length in X; lia]. }
      destruct FO as [us1 us2 t Q N LK M|M].
      + assert (F2 : Forall cmavo us1 /\ Forall cmavo us2) by (rewrite Q in F; apply Forall_app in F; exact F). destruct F2 as [F1 F2].
        assert (LL : List.length us1 + List.length us2 = List.length (u :: us)) by (rewrite Q, app_length; reflexivity).
        assert (P1 : 0 < List.length us1) by (destruct us1; [contradiction | cbn; lia]).
        pose proof (concat_pos us1 F1 N) as P2.
        destruct (IH us2 (A ++ concat us1) (glue1 out t) f) as (ts & SH & EQ); [cbn [List.length] in L, LL; unfold txt in *; lia | exact F2 | | |].
        { rewrite Q, concat_app, app_length in LF. lia. }
        { intros a b c Q2 Nb. apply (AK (us1 ++ a) b c); [rewrite Q, Q2, <- app_assoc; reflexivity | exact Nb]. }
        exists (t :: ts). split.
        { rewrite Q. apply sh_entry; [exact N | exact LK | | exact SH]. intros us' vs' Q3 LT. apply (M us' vs'); [rewrite Q; symmetry; exact Q3 | exact LT]. }
        intro SZ. rewrite OUT, E. cbn [obind]. rewrite (glued_ok _ _ _ SZ). cbn [obind].
        cbn [glue_all fold_left] in SZ |- *. unfold glue_all in EQ. specialize (EQ SZ).
        rewrite app_length in EQ. assert (QQ : (A ++ concat us1) ++ concat us2 = A ++ concat (u :: us)) by (rewrite <- app_assoc; f_equal; transitivity (concat (us1 ++ us2)); [symmetry; apply concat_app | f_equal; symmetry; exact Q]).
        rewrite QQ in EQ. exact EQ.
      + inversion F as [|? ? CU F2]; subst. pose proof CU as (c & v & -> & CC & VV).
        destruct (IH us (A ++ c :: v) (glue1 out (lit "?")) f) as (ts & SH & EQ); [cbn [List.length] in L; lia | exact F2 | | |].
        { cbn [concat] in LF. rewrite app_length in LF. cbn [List.length] in LF. lia. }
        { intros a b d Q2 Nb. apply (AK ((c :: v) :: a) b d); [rewrite Q2; reflexivity | exact Nb]. }
        exists (text "?" :: ts). split.
        { apply sh_unknown; [| exact SH]. intros us' vs' Q3 Nb. apply (M us' vs'); [symmetry; exact Q3 | exact Nb]. }
        intro SZ. rewrite OUT, E. cbn [obind]. rewrite (glued_ok out (lit "?") ts SZ). cbn [obind].
        assert (SK : skipn (S (List.length A)) (A ++ concat ((c :: v) :: us)) = v ++ concat us).
        { cbn [concat app]. replace (A ++ c :: v ++ concat us) with ((A ++ [c]) ++ v ++ concat us) by (rewrite <- app_assoc; reflexivity).
          replace (S (List.length A)) with (List.length (A ++ [c]) + 0) by (rewrite app_length; cbn; lia). rewrite skipn_app. rewrite Nat.add_0_r, skipn_all, Nat.sub_diag. reflexivity. }
        rewrite SK, (skip_units v us VV F2). cbn zeta.
        destruct (at_units (A ++ c :: v) us F2) as (c' & AT & ND). rewrite app_length in AT. cbn [List.length] in AT.
        replace ((A ++ c :: v) ++ concat us) with (A ++ concat ((c :: v) :: us)) in AT by (rewrite <- app_assoc; reflexivity).
        replace (S (List.length A) + List.length v) with (List.length A + S (List.length v)) by lia. rewrite AT. cbn [obind]. rewrite ND.
        cbn [glue_all fold_left] in SZ |- *. unfold glue_all in EQ. specialize (EQ SZ).
        rewrite app_length in EQ. cbn [List.length] in EQ.
        replace ((A ++ c :: v) ++ concat us) with (A ++ concat ((c :: v) :: us)) in EQ by (rewrite <- app_assoc; reflexivity). exact EQ.
  Qed.
  Definition known (us : list txt) : Prop := exists a b t, us = a ++ b /\ a <> [] /\ look (concat a) = Some t.
  Lemma outer_run A u us out f : A = [] \/ (exists A', A = A' ++ ["."%char]) -> cmavo u \/ vowel_cmavo u -> Forall cmavo us -> List.length (concat (u :: us)) < f -> asks (u :: us) ->
    (A = [] -> cmavo u \/ known (u :: us)) ->
    exists ts, shown look (u :: us) ts /\ ((N.of_nat (List.length (glue_all out ts)) < big)%N -> outer f transfn (A ++ concat (u :: us)) (List.length A) out = Ok (glue_all out ts)).
  Proof.
    intros HA [CU|VU] F LF AK KN.
    - destruct (outer_units (S (List.length us)) (u :: us) A out f) as (ts & SH & EQ); [cbn; lia | constructor; assumption | exact LF | exact AK | eauto].
    - destruct f as [|f]; [lia |].
      destruct (inner_first transfn look A u us [] (S (List.length (A ++ concat (u :: us)))) HA VU F) as (o & FO & E).
      { pose proof (units_le _ F). destruct VU as [NU _]. rewrite app_length. cbn [concat]. rewrite app_length. destruct u; [contradiction | cbn [List.length]; lia]. }
      { intros a b Q N. apply (AK [] a b); [exact Q | exact N]. }
      { intro A0. destruct (KN A0) as [(c & v & -> & CC & _)|K]; [| exact K]. destruct VU as [_ VU]. cbn [forallb] in VU. apply andb_true_iff in VU. destruct VU as [VU _].
        pose proof (vowel_chr _ VU). pose proof (cons_stops _ CC). congruence. }
      rewrite app_nil_r in E. rewrite <- app_length in E.
      assert (P : 0 < List.length (concat (u :: us))) by (destruct VU as [NU _]; cbn [concat]; rewrite app_length; destruct u; [contradiction | cbn [List.length]; lia]).
      cbn [outer]. destruct (Nat.ltb_spec (List.length A) (List.length (A ++ concat (u :: us)))) as [_|X]; [| rewrite app_length in X; lia].
      destruct FO as [us1 us2 t Q N LK M|M].
      + destruct us1 as [|u' us1]; [contradiction |]. injection Q as <- Q.
        assert (F2 : Forall cmavo us2) by (rewrite Q in F; apply Forall_app in F; apply F).
        destruct (outer_units (List.length us2) us2 (A ++ concat (u :: us1)) (glue1 out t) f) as (ts & SH & EQ); [apply Nat.le_refl | exact F2 | | |].
        { rewrite Q in LF. cbn [concat] in LF, P. rewrite concat_app, !app_length in LF. destruct VU as [NU _]. destruct u; [contradiction | cbn [List.length] in LF; lia]. }
        { intros a b c Q2 Nb. apply (AK (u :: us1 ++ a) b c); [rewrite Q, Q2; cbn [app]; f_equal; rewrite <- app_assoc; reflexivity | exact Nb]. }
        exists (t :: ts). split.
        { rewrite Q. change (u :: us1 ++ us2) with ((u :: us1) ++ us2). apply sh_entry; [exact N | exact LK | | exact SH]. intros us' vs' Q3 LT. apply (M us' vs'); [rewrite Q; symmetry; exact Q3 | exact LT]. }
        intro SZ. rewrite E. cbn [obind]. rewrite (glued_ok _ _ _ SZ). cbn [obind].
        cbn [glue_all fold_left] in SZ |- *. unfold glue_all in EQ. specialize (EQ SZ).
        rewrite app_length in EQ. assert (QQ : (A ++ concat (u :: us1)) ++ concat us2 = A ++ concat (u :: us)) by (rewrite <- app_assoc; f_equal; cbn [concat]; rewrite <- app_assoc; f_equal; transitivity (concat (us1 ++ us2)); [symmetry; apply concat_app | f_equal; symmetry; exact Q]).
        rewrite QQ in EQ. exact EQ.
      + pose proof VU as [NU VV]. destruct u as [|c v]; [contradiction |]. cbn [forallb] in VV. apply andb_true_iff in VV. destruct VV as [VC VV].
        destruct (outer_units (List.length us) us (A ++ c :: v) (glue1 out (lit "?")) f) as (ts & SH & EQ); [apply Nat.le_refl | exact F | | |].
        { cbn [concat] in LF. rewrite app_length in LF. cbn [List.length] in LF. lia. }
        { intros a b d Q2 Nb. apply (AK ((c :: v) :: a) b d); [rewrite Q2; reflexivity | exact Nb]. }
        exists (text "?" :: ts). split.
        { apply sh_unknown; [| exact SH]. intros us' vs' Q3 Nb. apply (M us' vs'); [symmetry; exact Q3 | exact Nb]. }
        intro SZ. rewrite E. cbn [obind]. rewrite (glued_ok out (lit "?") ts SZ). cbn [obind].
        assert (SK : match A ++ concat ((c :: v) :: us) with [] => [] | _ :: l => skipn (List.length A) l end = v ++ concat us).
        { change (skipn (S (List.length A)) (A ++ concat ((c :: v) :: us)) = v ++ concat us). cbn [concat app]. replace (A ++ c :: v ++ concat us) with ((A ++ [c]) ++ v ++ concat us) by (rewrite <- app_assoc; reflexivity).
          replace (S (List.length A)) with (List.length (A ++ [c]) + 0) by (rewrite app_length; cbn; lia). rewrite skipn_app. rewrite Nat.add_0_r, skipn_all, Nat.sub_diag. reflexivity. }
        cbn [skipn]. rewrite SK, (skip_units v us VV F). cbn zeta.
        destruct (at_units (A ++ c :: v) us F) as (c' & AT & ND). rewrite app_length in AT. cbn [List.length] in AT.
        replace ((A ++ c :: v) ++ concat us) with (A ++ concat ((c :: v) :: us)) in AT by (rewrite <- app_assoc; reflexivity).
        replace (S (List.length A) + List.length v) with (List.length A + S (List.length v)) by lia. rewrite AT. cbn [obind]. rewrite ND.
        cbn [glue_all fold_left] in SZ |- *. unfold glue_all in EQ. specialize (EQ SZ).
        rewrite app_length in EQ. cbn [List.length] in EQ.
        replace ((A ++ c :: v) ++ concat us) with (A ++ concat ((c :: v) :: us)) in EQ by (rewrite <- app_assoc; reflexivity). exact EQ.
  Qed.

  (* with no stop and nothing known the search leaves the buffer *)
  Lemma inner_off u us : forall B f, vowel_cmavo u -> Forall cmavo us -> S (List.length us) < f ->
    (forall a b, u :: us = a ++ b -> a <> [] -> transfn (concat a) = Ok None) ->
    inner f transfn (concat (u :: us) ++ B) 0 (List.length (concat (u :: us))) = UB UB_bounds.
  Proof.
    intros B f (NU & VU) F. revert B f. induction us as [|v us IH] using rev_ind; intros B f L T.
    - destruct f as [|f]; [lia |]. cbn [inner]. assert (P : 0 < List.length (concat [u])) by (cbn [concat]; rewrite app_nil_r; destruct u; [contradiction | cbn; lia]).
      destruct (Nat.ltb_spec 0 (List.length (concat [u]))) as [_|]; [| lia]. pose proof (sub_mid [] (concat [u]) B) as SM. cbn [app List.length Nat.add] in SM. rewrite SM.
      rewrite (T [u] []) by (reflexivity || discriminate). cbn [obind concat]. rewrite app_nil_r. pose proof (back_vowels u [] B VU) as BV. cbn [app List.length Nat.add] in BV. rewrite BV. reflexivity.
    - destruct f as [|f]; [lia |]. apply Forall_app in F. destruct F as [F1 F2]. inversion F2 as [|? ? CU _]; subst.
      rewrite app_length in L. cbn [List.length] in L. cbn [inner].
      assert (P : 0 < List.length (concat (u :: us ++ [v]))) by (cbn [concat]; rewrite app_length; destruct u; [contradiction | cbn; lia]).
      destruct (Nat.ltb_spec 0 (List.length (concat (u :: us ++ [v])))) as [_|]; [| lia].
      pose proof (sub_mid [] (concat (u :: us ++ [v])) B) as SM. cbn [app List.length Nat.add] in SM. rewrite SM.
      rewrite (T (u :: us ++ [v]) []) by (try (rewrite app_nil_r; reflexivity); discriminate). cbn [obind].
      assert (CS : concat (u :: us ++ [v]) = concat (u :: us) ++ v) by (change (u :: us ++ [v]) with ((u :: us) ++ [v]); apply concat_snoc).
      rewrite CS, app_length, <- app_assoc. rewrite (back_unit _ _ _ CU). cbn [obind]. apply IH; [exact F1 | lia |].
      intros a b E N. apply (T a (b ++ [v])); [rewrite app_assoc, <- E; reflexivity | exact N].
  Qed.
End FRAGMENTS.

(* ---- the two translations ---- *)

Section DICT.
  Variable dict : txt -> option txt.
  Definition category (w : txt) : option txt := dict ("+"%char :: w).
  Hypothesis SE : small_entries dict.

  Lemma translate_look w : translate dict w = Ok (dict w).
  Proof. unfold translate. destruct (dict w) as [t|] eqn:E; [| reflexivity]. destruct (SE _ _ E) as [_ L]. rewrite (fit_ok big _ L). reflexivity. Qed.
  Lemma selmao_look w : List.length w <= 62 -> translate_selmao dict w = Ok (category w).
  Proof. intro L. unfold translate_selmao. rewrite fit_ok by (cbn [List.length]; lia). cbn [obind]. apply translate_look. Qed.
  Lemma shown_ne look us ts : (forall w t, look w = Some t -> t <> []) -> shown look us ts -> Forall (fun t => t <> []) ts.
  Proof. intros NE SH. induction SH; constructor; eauto. discriminate. Qed.
  Lemma run_parts dotted us w : run dotted us w -> exists u us', us = u :: us' /\ (cmavo u \/ vowel_cmavo u) /\ Forall cmavo us' /\
    w = (if dotted then ["."%char] else []) ++ concat (u :: us') /\ match w with c :: _ => if Ascii.eqb c "." then 1 else 0 | [] => 0 end = List.length (if dotted then ["."%char] else []).
  Proof.
    intros [u us' U F]. exists u, us'. repeat (split; [trivial |]). destruct dotted; [reflexivity |]. cbn [app].
    destruct U as [(c & v & -> & C & _)|[N V]]; cbn [concat app List.length].
    - rewrite (cons_dot _ C). reflexivity.
    - destruct u as [|c v]; [contradiction |]. cbn [app]. cbn [forallb] in V. apply andb_true_iff in V. destruct V as [V _]. rewrite (vowel_dot _ V). reflexivity.
  Qed.
  Lemma fragment look transfn dotted us w : (forall w t, look w = Some t -> t <> []) -> run dotted us w -> (N.of_nat (List.length w) < big)%N ->
    asks transfn look us -> (dotted = false -> (exists u us', us = u :: us' /\ cmavo u) \/ known look us) ->
    exists ts, shown look us ts /\ ((N.of_nat (List.length (spaced ts)) < big)%N -> try_cmavo_fragment w transfn = Ok (spaced ts)).
  Proof.
    intros NE R LW AK KN. destruct (run_parts _ _ _ R) as (u & us' & -> & U & F & W & D).
    destruct (outer_run transfn look (if dotted then ["."%char] else []) u us' [] (S (List.length w))) as (ts & SH & EQ).
    - destruct dotted; [right; exists []; reflexivity | left; reflexivity].
    - exact U.
    - exact F.
    - rewrite W, app_length. lia.
    - exact AK.
    - intro A0. destruct dotted; [discriminate A0 |]. destruct (KN eq_refl) as [(u' & us2 & Q & C)|K]; [injection Q as <- <-; auto | auto].
    - exists ts. split; [exact SH |]. intro SZ. unfold try_cmavo_fragment. rewrite (fit_ok _ _ LW). cbn [obind]. rewrite D.
      pose proof (glue_all_spaced ts (shown_ne _ _ _ NE SH)) as GS. rewrite GS in EQ. rewrite W in EQ |- *. apply EQ, SZ.
  Qed.
  Lemma entry_ne w t : dict w = Some t -> t <> [].
  Proof. intro E. exact (proj1 (SE _ _ E)). Qed.
  Lemma category_ne w t : category w = Some t -> t <> [].
  Proof. intro E. exact (proj1 (SE _ _ E)). Qed.
  Lemma part_le (us : list txt) a b c : us = a ++ b ++ c -> List.length (concat b) <= List.length (concat us).
  Proof. intros ->. rewrite !concat_app, !app_length. lia. Qed.

  (* the spoken form of a run: without the stop *)
  Theorem run_gloss dotted us w : run dotted us w -> dict (concat us) = None -> List.length (concat us) <= 62 ->
    (dotted = false -> (exists u us', us = u :: us' /\ cmavo u) \/ known dict us /\ known category us) ->
    exists ts cs, shown dict us ts /\ shown category us cs /\
      ((N.of_nat (List.length (spaced ts)) < big)%N -> (N.of_nat (List.length (spaced cs)) < big)%N -> trans_node dict (TT_CMAVO, w) = Ok (spaced cs, spaced ts)).
  Proof.
    intros R NO L KN. assert (LW : (N.of_nat (List.length w) < big)%N).
    { destruct R as [u us' _ _]. rewrite app_length. unfold big. destruct dotted; cbn [List.length]; lia. }
    destruct (fragment dict (translate dict) dotted us w entry_ne R LW) as (ts & S1 & E1).
    { intros a b c _ _. apply translate_look. }
    { intro D. destruct (KN D) as [H|[H _]]; auto. }
    destruct (fragment category (translate_selmao dict) dotted us w category_ne R LW) as (cs & S2 & E2).
    { intros a b c Q _. apply selmao_look. pose proof (part_le _ _ _ _ Q). lia. }
    { intro D. destruct (KN D) as [H|[_ H]]; auto. }
    exists ts, cs. split; [exact S1 |]. split; [exact S2 |]. intros Z1 Z2. unfold trans_node. cbn [fst snd].
    assert (X : match w with c :: w0 => if Ascii.eqb c "." then w0 else w | [] => [] end = concat us).
    { destruct (run_parts _ _ _ R) as (u & us' & -> & U & F & W & D). destruct dotted; rewrite W; [reflexivity |]. rewrite W in D. cbn [app] in D |- *. cbn [List.length] in D.
      destruct (concat (u :: us')) as [|c w0]; [reflexivity |]. destruct (Ascii.eqb c "."); [discriminate D | reflexivity]. }
    rewrite X, translate_look, NO. cbn [obind]. rewrite (E1 Z1). cbn [obind]. rewrite (E2 Z2). reflexivity.
  Qed.
  (* an entry for the whole *)
  Theorem whole_gloss dotted us w t : run dotted us w -> dict (concat us) = Some t -> List.length (concat us) <= 30 ->
    trans_node dict (TT_CMAVO, w) = Ok (match category (concat us) with Some c => c | None => [] end, t).
  Proof.
    intros R E L. unfold trans_node. cbn [fst snd].
    assert (X : match w with c :: w0 => if Ascii.eqb c "." then w0 else w | [] => [] end = concat us).
    { destruct (run_parts _ _ _ R) as (u & us' & -> & U & F & W & D). destruct dotted; rewrite W; [reflexivity |]. rewrite W in D. cbn [app] in D |- *. cbn [List.length] in D.
      destruct (concat (u :: us')) as [|c w0]; [reflexivity |]. destruct (Ascii.eqb c "."); [discriminate D | reflexivity]. }
    rewrite X, translate_look, E. cbn [obind]. rewrite fit_ok by (cbn [List.length]; lia). cbn [obind]. rewrite translate_look. reflexivity.
  Qed.
  Theorem off_buffer u us : vowel_cmavo u -> Forall cmavo us -> (N.of_nat (List.length (concat (u :: us))) < big)%N ->
    (forall a b, u :: us = a ++ b -> a <> [] -> dict (concat a) = None) -> trans_node dict (TT_CMAVO, concat (u :: us)) = UB UB_bounds.
  Proof.
    intros VU F L T. assert (R : run false (u :: us) (concat (u :: us))) by (exact (r_run false u us (or_intror VU) F)).
    unfold trans_node. cbn [fst snd].
    assert (X : match concat (u :: us) with c :: w0 => if Ascii.eqb c "." then w0 else concat (u :: us) | [] => [] end = concat (u :: us)).
    { destruct (run_parts _ _ _ R) as (u' & us' & Q & U & F' & W & D). cbn [app List.length] in D. destruct (concat (u :: us)) as [|c w0]; [reflexivity |]. destruct (Ascii.eqb c "."); [discriminate D | reflexivity]. }
    destruct (run_parts _ _ _ R) as (_ & _ & _ & _ & _ & _ & D).
    rewrite X, translate_look, (T (u :: us) []) by (try (rewrite app_nil_r; reflexivity); discriminate). cbn [obind]. unfold try_cmavo_fragment. rewrite (fit_ok _ _ L). cbn [obind].
    rewrite D. cbn [List.length]. cbn [outer].
    assert (P : 0 < List.length (concat (u :: us))) by (destruct VU as [NU _]; cbn [concat]; rewrite app_length; destruct u; [contradiction | cbn [List.length]; lia]).
    destruct (Nat.ltb_spec 0 (List.length (concat (u :: us)))) as [_|]; [| lia].
    pose proof (inner_off (translate dict) u us [] (S (List.length (concat (u :: us)))) VU F) as IO. rewrite app_nil_r in IO. rewrite IO; [reflexivity | |].
    - pose proof (units_le _ F). destruct VU as [NU _]. cbn [concat]. rewrite app_length. destruct u; [contradiction | cbn [List.length]; lia].
    - intros a b E N. rewrite translate_look, (T _ _ E N). reflexivity.
  Qed.
End DICT.

(* a run is translated in one way *)
Theorem shown_once look us ts ts' : shown look us ts -> shown look us ts' -> ts = ts'.
Proof.
  intro SH. revert ts'. induction SH as [|us vs t out N LK M SH IH|u vs out M SH IH]; intros ts' SH'.
  - inversion SH' as [|us' vs' t0 o0 N' LK' M' SH2 E E2|]; [reflexivity |]. destruct us'; [cbn [app] in E; subst vs'; destruct (N' eq_refl) | discriminate E].
  - inversion SH' as [E|us' vs' t' out' N' LK' M' SH2 E|u vs' out' M' SH2 E].
    + destruct us; [contradiction | discriminate E].
    + assert (Q : us' = us /\ vs' = vs).
      { assert (LE : List.length us' = List.length us).
        { destruct (Nat.lt_trichotomy (List.length us') (List.length us)) as [H|[H|H]]; [| exact H |].
          - rewrite (M' us vs) in LK; [discriminate LK | symmetry; exact E | exact H].
          - rewrite (M us' vs') in LK'; [discriminate LK' | exact E | exact H]. }
        clear - E LE. revert us E LE. induction us' as [|x us' IH]; intros [|y us] E LE; try discriminate LE; [split; [reflexivity | exact E] |].
        injection E as -> E. destruct (IH us E) as [-> ->]; [cbn in LE; lia | auto]. }
      destruct Q as [-> ->]. rewrite LK in LK'. injection LK' as <-. rewrite (IH _ SH2). reflexivity.
    + exfalso. rewrite (M' us vs) in LK; [discriminate LK | symmetry; exact E | exact N].
  - inversion SH' as [|us' vs' t' out' N' LK' M' SH2 E|u' vs' out' M' SH2 E].
    + exfalso. rewrite (M us' vs') in LK'; [discriminate LK' | exact E | exact N'].
    + subst. rewrite (IH _ SH2). reflexivity.
Qed.
