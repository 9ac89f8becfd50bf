(* The word glosser: runs of cmavo. *)
From Coq Require Import String Ascii List NArith ZArith Bool Arith Lia.
From Verif Require Import Base LayoutModel LujvoSpec CmModel CmSpec.
Import ListNotations.
Open Scope list_scope.

Lemma fit_ok n s : (N.of_nat (List.length s) < n)%N -> fit n s = Ok s.
Proof. intro H. unfold fit. apply N.ltb_lt in H. rewrite H. reflexivity. Qed.

Lemma vowelish_chr c : strchr "aeiou'" c = true <-> vowelish c = true \/ c = nul.
Proof.
  unfold strchr, vowelish, vow, LujvoSpec.among. change (lit "aeiou'") with (["a"; "e"; "i"; "o"; "u"; "'"]%char). change (text "aeiou") with (["a"; "e"; "i"; "o"; "u"]%char).
  cbn [existsb]. rewrite !orb_true_iff. rewrite !Ascii.eqb_eq. intuition (try discriminate); subst; auto.
Qed.
Lemma vowelish_chr2 c : strchr "aeiuo'" c = strchr "aeiou'" c.
Proof. unfold strchr. cbn [lit list_ascii_of_string existsb]. destruct (Ascii.eqb c "a"), (Ascii.eqb c "e"), (Ascii.eqb c "i"), (Ascii.eqb c "o"), (Ascii.eqb c "u"), (Ascii.eqb c "'"); reflexivity. Qed.
Lemma cons_stops c : cons c = true -> strchr "aeiou'" c = false.
Proof.
  unfold cons, LujvoSpec.among. intro H. apply existsb_exists in H. destruct H as (x & I & E). apply Ascii.eqb_eq in E. subst x.
  cbn in I. repeat (destruct I as [<-|I]; [reflexivity |]). destruct I.
Qed.
Lemma cons_dot c : cons c = true -> Ascii.eqb c "." = false.
Proof.
  unfold cons, LujvoSpec.among. intro H. apply existsb_exists in H. destruct H as (x & I & E). apply Ascii.eqb_eq in E. subst x.
  cbn in I. repeat (destruct I as [<-|I]; [reflexivity |]). destruct I.
Qed.
Lemma vowel_dot c : vowelish c = true -> Ascii.eqb c "." = false.
Proof. unfold vowelish, vow, LujvoSpec.among. cbn [text list_ascii_of_string existsb]. intro H. destruct (Ascii.eqb_spec c "."); [subst c; discriminate H | reflexivity]. Qed.
Lemma vowel_chr c : vowelish c = true -> strchr "aeiou'" c = true.
Proof. intro H. apply vowelish_chr. auto. Qed.

Lemma at_app A c B : at_ (A ++ c :: B) (List.length A) = Ok c.
Proof. unfold at_. rewrite nth_error_app2, Nat.sub_diag by lia. reflexivity. Qed.
Lemma at_end A : at_ A (List.length A) = Ok nul.
Proof. unfold at_. rewrite (proj2 (nth_error_None A (List.length A))) by lia. rewrite Nat.eqb_refl. reflexivity. Qed.

(* back over vowels to what is before them *)
Lemma back_vowels v : forall A B, forallb vowelish v = true -> back (A ++ v ++ B) (List.length A + List.length v) = back (A ++ v ++ B) (List.length A).
Proof.
  induction v as [|c v IH] using rev_ind; intros A B F; [cbn [List.length]; rewrite Nat.add_0_r; reflexivity |].
  rewrite forallb_app in F. apply andb_true_iff in F. destruct F as [F1 F2]. cbn [forallb] in F2. rewrite andb_true_r in F2.
  rewrite app_length. cbn [List.length]. replace (List.length A + (List.length v + 1)) with (S (List.length A + List.length v)) by lia. cbn [back].
  rewrite <- app_assoc. cbn [app]. rewrite (app_assoc A v). rewrite <- (app_length A v). rewrite at_app. cbn [obind].
  rewrite vowelish_chr2, (vowel_chr _ F2). rewrite app_length. rewrite <- app_assoc. specialize (IH A (c :: B) F1). exact IH.
Qed.
Lemma back_unit A u B : cmavo u -> back (A ++ u ++ B) (List.length A + List.length u) = Ok (List.length A).
Proof.
  intros (c & v & -> & C & F). pose proof (back_vowels v (A ++ [c]) B F) as H. rewrite app_length in H. cbn [List.length] in H.
  rewrite <- !app_assoc in H. cbn [app] in H. cbn [app List.length]. replace (List.length A + S (List.length v)) with (List.length A + 1 + List.length v) by lia. rewrite H.
  replace (List.length A + 1) with (S (List.length A)) by lia. cbn [back]. rewrite at_app. cbn [obind]. rewrite vowelish_chr2, (cons_stops _ C). reflexivity.
Qed.
Lemma sub_mid A x B : sub (A ++ x ++ B) (List.length A) (List.length A + List.length x) = x.
Proof.
  unfold sub. rewrite skipn_app, Nat.sub_diag, skipn_all, app_nil_l, skipn_O. replace (List.length A + List.length x - List.length A) with (List.length x + 0) by lia.
  rewrite firstn_app_2. cbn [firstn]. apply app_nil_r.
Qed.
Lemma cmavo_pos u : cmavo u -> 0 < List.length u.
Proof. intros (c & v & -> & _). cbn. lia. Qed.
Lemma concat_snoc (us : list txt) u : concat (us ++ [u]) = concat us ++ u.
Proof. rewrite concat_app. cbn [concat]. rewrite app_nil_r. reflexivity. Qed.
Lemma concat_pos us : Forall cmavo us -> us <> [] -> 0 < List.length (concat us).
Proof. intros F N. destruct us as [|u us]; [contradiction |]. inversion F; subst. cbn [concat]. rewrite app_length. pose proof (cmavo_pos _ H1). lia. Qed.

Section FRAGMENTS.
  Variable transfn : txt -> outcome (option txt).
  Variable look : txt -> option txt.

  (* the longest entry for a prefix of a list of units *)
  Inductive found (us : list txt) : option (list txt * txt) -> Prop :=
  | fo_some us1 us2 t : us = us1 ++ us2 -> us1 <> [] -> look (concat us1) = Some t ->
      (forall a b, us = a ++ b -> List.length us1 < List.length a -> look (concat a) = None) -> found us (Some (us1, t))
  | fo_none : (forall a b, us = a ++ b -> a <> [] -> look (concat a) = None) -> found us None.

  (* what the search does at the first unit, when nothing matches *)
  Lemma inner_units us : forall A B f, Forall cmavo us -> List.length us < f -> (forall a b, us = a ++ b -> a <> [] -> transfn (concat a) = Ok (look (concat a))) ->
    exists o, found us o /\
    inner f transfn (A ++ concat us ++ B) (List.length A) (List.length A + List.length (concat us)) =
      Ok (match o with Some (us1, t) => Some (List.length A + List.length (concat us1), t) | None => None end).
  Proof.
    induction us as [|u us IH] using rev_ind; intros A B f F L T.
    - destruct f as [|f]; [lia |]. exists None. split; [apply fo_none; intros a b E N; destruct a; [contradiction | discriminate E] |].
      cbn [concat List.length inner]. rewrite Nat.add_0_r, Nat.ltb_irrefl. reflexivity.
    - destruct f as [|f]; [lia |]. apply Forall_app in F. destruct F as [F1 F2]. inversion F2 as [|? ? CU _]; subst.
      rewrite app_length in L. cbn [List.length] in L. cbn [inner].
      assert (P : 0 < List.length (concat (us ++ [u]))) by (apply concat_pos; [apply Forall_app; auto | destruct us; discriminate]).
      destruct (Nat.ltb_spec (List.length A) (List.length A + List.length (concat (us ++ [u])))) as [_|]; [| lia].
      rewrite sub_mid. rewrite (T (us ++ [u]) []) by (try (rewrite app_nil_r; reflexivity); destruct us; discriminate). cbn [obind].
      destruct (look (concat (us ++ [u]))) as [t|] eqn:LK.
      + exists (Some (us ++ [u], t)). split; [| reflexivity]. eapply fo_some; [symmetry; apply app_nil_r | destruct us; discriminate | exact LK |].
        intros a b E LL. apply (f_equal (@List.length _)) in E. rewrite !app_length in *. cbn [List.length] in *. lia.
      + rewrite concat_snoc, app_length, <- app_assoc. rewrite Nat.add_assoc.
        replace (A ++ concat us ++ u ++ B) with ((A ++ concat us) ++ u ++ B) by (rewrite <- app_assoc; reflexivity).
        rewrite <- (app_length A (concat us)). rewrite (back_unit _ _ _ CU). cbn [obind]. rewrite <- app_assoc, app_length.
        destruct (IH A (u ++ B) f F1 ltac:(lia)) as (o & FO & E).
        { intros a b E N. apply (T a (b ++ [u])); [rewrite app_assoc, <- E; reflexivity | exact N]. }
        exists o. split; [| exact E]. assert (SP : forall a b : list txt, us ++ [u] = a ++ b -> a = us ++ [u] \/ exists b', us = a ++ b').
        { intros a b Q. destruct b as [|x b] using rev_ind; [left; rewrite app_nil_r in Q; auto |]. right. rewrite app_assoc in Q. apply app_inj_tail in Q. destruct Q as [Q _]. eauto. }
        destruct FO as [us1 us2 t -> N LK1 M|M].
        * eapply (fo_some _ us1 (us2 ++ [u])); [rewrite app_assoc; reflexivity | exact N | exact LK1 |]. intros a b Q LL. destruct (SP a b Q) as [->|(b' & Q')]; [exact LK | eapply M; eassumption].
        * apply fo_none. intros a b Q N. destruct (SP a b Q) as [->|(b' & Q')]; [exact LK | eapply M; eassumption].
  Qed.

  (* the first unit may be of vowels, with a stop before it *)
  Lemma inner_first A u us : forall B f, A = [] \/ (exists A', A = A' ++ ["."%char]) -> vowel_cmavo u -> Forall cmavo us -> S (List.length us) < f ->
    (forall a b, u :: us = a ++ b -> a <> [] -> transfn (concat a) = Ok (look (concat a))) ->
    (A = [] -> exists a b t, u :: us = a ++ b /\ a <> [] /\ look (concat a) = Some t) ->
    exists o, found (u :: us) o /\
    inner f transfn (A ++ concat (u :: us) ++ B) (List.length A) (List.length A + List.length (concat (u :: us))) =
      Ok (match o with Some (us1, t) => Some (List.length A + List.length (concat us1), t) | None => None end).
  Proof.
    intros B f HA (NU & VU) F. revert B f. induction us as [|v us IH] using rev_ind; intros B f L T K.
    - destruct f as [|f]; [lia |]. cbn [inner]. assert (P : 0 < List.length (concat [u])) by (cbn [concat]; rewrite app_nil_r; destruct u; [contradiction | cbn; lia]).
      destruct (Nat.ltb_spec (List.length A) (List.length A + List.length (concat [u]))) as [_|]; [| lia].
      rewrite sub_mid, (T [u] []) by (reflexivity || discriminate). cbn [obind].
      destruct (look (concat [u])) as [t|] eqn:LK.
      + exists (Some ([u], t)). split; [| reflexivity]. eapply (fo_some _ [u] []); [reflexivity | discriminate | exact LK |].
        intros a b E LL. apply (f_equal (@List.length _)) in E. rewrite app_length in E. cbn [List.length] in *. lia.
      + exists None. split.
        { apply fo_none. intros a b E N. destruct a as [|x a]; [contradiction |]. destruct a as [|y a]; [injection E as <- _; exact LK | discriminate E]. }
        destruct HA as [->|(A' & ->)].
        { destruct (K eq_refl) as (a & b & t & E & N & LA). destruct a as [|x a]; [contradiction |]. destruct a as [|y a]; [injection E as <- _; congruence | discriminate E]. }
        cbn [concat]. rewrite app_nil_r. rewrite (back_vowels u (A' ++ ["."%char]) B VU). rewrite app_length. cbn [List.length].
        replace (List.length A' + 1) with (S (List.length A')) by lia. cbn [back]. rewrite <- app_assoc. cbn [app]. rewrite at_app. cbn [obind].
        change (strchr "aeiuo'" ".") with false. cbn iota. cbn [obind]. destruct f as [|f]; [cbn [List.length] in L; lia |]. cbn [inner].
        destruct (Nat.ltb_spec (S (List.length A')) (List.length A')) as [|_]; [lia | reflexivity].
    - destruct f as [|f]; [lia |]. apply Forall_app in F. destruct F as [F1 F2]. inversion F2 as [|? ? CU _]; subst.
      rewrite app_length in L. cbn [List.length] in L. cbn [inner].
      assert (P : 0 < List.length (concat (u :: us ++ [v]))) by (cbn [concat]; rewrite app_length; destruct u; [contradiction | cbn; lia]).
      destruct (Nat.ltb_spec (List.length A) (List.length A + List.length (concat (u :: us ++ [v])))) as [_|]; [| lia].
      rewrite sub_mid. rewrite (T (u :: us ++ [v]) []) by (try (rewrite app_nil_r; reflexivity); discriminate). cbn [obind].
      destruct (look (concat (u :: us ++ [v]))) as [t|] eqn:LK.
      + exists (Some (u :: us ++ [v], t)). split; [| reflexivity]. eapply (fo_some _ (u :: us ++ [v]) []); [symmetry; apply app_nil_r | discriminate | exact LK |].
        intros a b E LL. apply (f_equal (@List.length _)) in E. rewrite app_length in E. cbn [List.length] in *. lia.
      + assert (CS : concat (u :: us ++ [v]) = concat (u :: us) ++ v) by (change (u :: us ++ [v]) with ((u :: us) ++ [v]); apply concat_snoc).
        rewrite CS, app_length, <- app_assoc. rewrite Nat.add_assoc.
        replace (A ++ concat (u :: us) ++ v ++ B) with ((A ++ concat (u :: us)) ++ v ++ B) by (rewrite <- app_assoc; reflexivity).
        rewrite <- (app_length A (concat (u :: us))). rewrite (back_unit _ _ _ CU). cbn [obind]. rewrite <- app_assoc, app_length.
        assert (SP : forall a b : list txt, u :: us ++ [v] = a ++ b -> a = u :: us ++ [v] \/ exists b', u :: us = a ++ b').
        { intros a b Q. destruct b as [|x b] using rev_ind; [left; rewrite app_nil_r in Q; auto |]. right. rewrite app_assoc in Q. change (u :: us ++ [v]) with ((u :: us) ++ [v]) in Q. apply app_inj_tail in Q. destruct Q as [Q _]. eauto. }
        destruct (IH F1 (v ++ B) f ltac:(lia)) as (o & FO & E).
        { intros a b E N. apply (T a (b ++ [v])); [rewrite app_assoc, <- E; reflexivity | exact N]. }
        { intro A0. destruct (K A0) as (a & b & t & E & N & LA). destruct (SP a b E) as [->|(b' & Q')]; [congruence | eauto 6]. }
        exists o. split; [| exact E].
        destruct FO as [us1 us2 t E1 N LK1 M|M].
        * eapply (fo_some _ us1 (us2 ++ [v])); [rewrite app_assoc, <- E1; reflexivity | exact N | exact LK1 |]. intros a b Q LL. destruct (SP a b Q) as [->|(b' & Q')]; [exact LK | eapply M; eassumption].
        * apply fo_none. intros a b Q N. destruct (SP a b Q) as [->|(b' & Q')]; [exact LK | eapply M; eassumption].
  Qed.
End FRAGMENTS.
