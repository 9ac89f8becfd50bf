(* The lujvo maker: the tables and the whole program. *)
From Coq Require Import String Ascii List NArith ZArith Bool Arith Lia Permutation Sorted.
From Verif Require Import Base LujvoData LujvoModel LujvoSpec LujvoProofs LujvoProofs2 LujvoProofs3 LujvoProofs4 LujvoProofs5 LujvoProofs6.
From Verif Require DictSpec DictModel DictProofs.
Import ListNotations.
Open Scope list_scope.

(* ---- kinds, computed ---- *)
Definition kind_of (r : list ascii) : option kind :=
  match r with
  | [a; b; c] =>
      if cons a && vow b && cons c then Some CVC
      else if initial_pair a b && vow c then Some CCV
      else if cons a && vow b && vow c then Some CVV else None
  | [a; b; c; d] =>
      if cons a && vow b && Ascii.eqb c "'" && vow d then Some CVhV
      else if cons a && vow b && permissible c d then Some CVCC
      else if initial_pair a b && vow c && cons d then Some CCVC else None
  | [a; b; c; d; e] =>
      if cons a && vow b && permissible c d && vow e then Some CVCCV
      else if initial_pair a b && vow c && cons d && vow e then Some CCVCV else None
  | _ => None
  end.
Lemma kind_of_form r k : kind_of r = Some k -> form k r.
Proof.
  unfold kind_of. destruct r as [|a [|b [|c [|d [|e [|]]]]]]; try discriminate; intros H;
    repeat match type of H with (if ?x then _ else _) = _ => destruct x eqn:? end; try discriminate H; injection H as <-;
    repeat match goal with K : _ && _ = true |- _ => apply andb_true_iff in K; destruct K end;
    try match goal with K : Ascii.eqb _ _ = true |- _ => apply Ascii.eqb_eq in K; subst end; constructor; auto.
Qed.

(* ---- the tables ---- *)
Definition strings_sorted (l : list string) : bool :=
  (fix go p l := match l with [] => true | x :: l => match DictModel.strcmp p x with Lt => go x l | _ => false end end) ""%string l.
Lemma strings_sorted_spec l : strings_sorted l = true -> StronglySorted DictSpec.before l.
Proof.
  unfold strings_sorted. generalize ""%string as p. intros p H.
  enough (StronglySorted DictSpec.before l /\ Forall (DictSpec.before p) l) by tauto.
  revert p H. induction l as [|x l IH]; intros p H; [split; constructor|].
  destruct (DictModel.strcmp p x) eqn:E; try discriminate H. apply DictProofs.strcmp_before in E.
  destruct (IH x H) as [S F]. split; constructor; auto.
  eapply Forall_impl; [|exact F]. intros y Hy. eapply DictProofs.before_trans; eassumption.
Qed.
Lemma sorted_nodup l : StronglySorted DictSpec.before l -> NoDup l.
Proof.
  induction 1 as [|x l S IH F]; constructor; auto. intros I. rewrite Forall_forall in F. exact (DictProofs.before_irrefl _ (F x I)).
Qed.
Lemma gismu_nodup : NoDup gismu.
Proof. apply sorted_nodup, strings_sorted_spec. vm_compute. reflexivity. Qed.

Fixpoint distinct (l : list cword) : bool :=
  match l with [] => true | x :: l => negb (existsb (fun y => if list_eq_dec ascii_dec x y then true else false) l) && distinct l end.
Lemma distinct_spec l : distinct l = true -> NoDup l.
Proof.
  induction l as [|x l IH]; intros H; constructor; cbn in H; apply andb_true_iff in H; destruct H as [H1 H2]; auto.
  intros I. apply negb_true_iff in H1. rewrite <- not_true_iff_false in H1. apply H1, existsb_exists. exists x. split; auto.
  destruct (list_eq_dec _ x x); auto.
Qed.
Definition usable (final_too : bool) (r : cword) : bool :=
  match kind_of r with Some k => medial k && implb final_too (final k) | None => false end.
Definition row_ok (i : nat) : bool :=
  match nth_error gismu i, short_rafsi i with
  | Some g, Ok l =>
      forallb (fun r => usable (ends_in_vowel r) r) l
      && (if Nat.eqb (String.length g) 5 then
            match kind_of (w g) with Some k => final k | None => false end && usable false (removelast (w g)) else true)
      && distinct (l ++ if Nat.eqb (String.length g) 5 then [w g; removelast (w g)] else []) && Nat.leb (List.length l) 4
  | _, _ => false
  end.
Lemma rows_ok : forallb row_ok (seq 0 (List.length gismu)) = true.
Proof. vm_compute. reflexivity. Qed.
Lemma row i g : nth_error gismu i = Some g -> row_ok i = true.
Proof.
  intros H. pose proof rows_ok as R. rewrite forallb_forall in R. apply R, in_seq.
  split; [lia|]. cbn [Nat.add]. apply nth_error_Some. congruence.
Qed.
Lemma index_of_spec s : forall l i j, index_of s l i = Some j <-> exists k g, j = (i + k)%nat /\ nth_error l k = Some g /\ w g = s /\
  forall k' g', (k' < k)%nat -> nth_error l k' = Some g' -> w g' <> s.
Proof.
  induction l as [|g l IH]; intros i j; cbn [index_of].
  - split; [discriminate|]. intros [k [g [_ [H _]]]]. destruct k; discriminate H.
  - destruct (list_eq_dec ascii_dec (w g) s) as [E|N].
    + split.
      * intros H. injection H as <-. exists 0%nat, g. repeat split; auto. intros; lia.
      * intros [k [g' [-> [H1 [H2 H3]]]]]. destruct k as [|k]; [f_equal; lia|]. destruct (H3 0%nat g ltac:(lia) eq_refl E).
    + rewrite IH. split.
      * intros [k [g' [-> [H1 [H2 H3]]]]]. exists (S k), g'. split; [lia|]. split; [exact H1|]. split; [exact H2|].
        intros [|k'] g2 L H; [injection H as <-; exact N|]. apply (H3 k' g2); [lia | exact H].
      * intros [k [g' [-> [H1 [H2 H3]]]]]. destruct k as [|k]; [injection H1 as <-; contradiction|].
        exists k, g'. split; [lia|]. split; [exact H1|]. split; [exact H2|]. intros k' g2 L H. apply (H3 (S k') g2); [lia | exact H].
Qed.
Lemma w_inj a b : w a = w b -> a = b.
Proof. intros H. rewrite <- (string_of_list_ascii_of_string a), <- (string_of_list_ascii_of_string b). unfold w in H. now rewrite H. Qed.
Lemma lookup_spec s : match lookup_gismu s with
  | Some i => exists g, nth_error gismu i = Some g /\ w g = s
  | None => forall g, In g gismu -> w g <> s
  end.
Proof.
  unfold lookup_gismu. destruct (index_of s gismu 0) as [i|] eqn:E.
  - apply index_of_spec in E. destruct E as [k [g [-> [H [W _]]]]]. exists g. auto.
  - intros g I W. apply In_nth_error in I. destruct I as [n H].
    assert (K : exists m, index_of s gismu 0 = Some m).
    { clear E. generalize 0%nat as i0. revert n H. generalize gismu as l. induction l as [|x l IH]; intros n H i0; [destruct n; discriminate H|].
      cbn [index_of]. destruct (list_eq_dec _ _ _); eauto. destruct n as [|n]; [injection H as ->; contradiction|]. eapply IH. exact H. }
    destruct K as [m K]. congruence.
Qed.

Lemma short_spec i g l : nth_error gismu i = Some g -> short_rafsi i = Ok l -> forall r, In r l <-> short g r.
Proof.
  intros Hg Hl r. unfold short_rafsi in Hl.
  destruct (nth_error n_rafsi i) as [n|] eqn:En; [|discriminate Hl]. destruct (nth_error start_indices i) as [si|] eqn:Es; [|discriminate Hl].
  destruct ((si + n <=? N.of_nat (List.length rafsi))%N) eqn:Eb; [|discriminate Hl]. injection Hl as <-.
  assert (K : forall (m : list string) n s, In s (firstn n m) <-> exists k, (k < n)%nat /\ nth_error m k = Some s).
  { clear. induction m as [|x m IH]; intros n s.
    - rewrite firstn_nil. split; [intros []|]. intros [k [_ H]]. destruct k; discriminate H.
    - destruct n as [|n]; cbn [firstn]; [split; [intros []|]; intros [k [H _]]; lia|]. cbn [In]. rewrite IH. split.
      + intros [->|[k [L H]]]; [exists 0%nat; split; [lia|reflexivity] | exists (S k); split; [lia|exact H]].
      + intros [[|k] [L H]]; [left; now injection H | right; exists k; split; [lia|exact H]]. }
  assert (K2 : forall (m : list string) a k, nth_error (skipn a m) k = nth_error m (a + k)).
  { clear. induction m as [|x m IH]; intros a k; [rewrite skipn_nil; destruct k, (a + _)%nat; reflexivity|]. destruct a; [reflexivity|]. cbn. apply IH. }
  rewrite in_map_iff. split.
  - intros [s [<- I]]. apply K in I. destruct I as [k [L H]]. rewrite K2 in H. exists i, n, si, k, s. auto 10.
  - intros [i' [n' [si' [k [s [H1 [H2 [H3 [H4 [H5 ->]]]]]]]]]].
    assert (i' = i).
    { pose proof gismu_nodup as D. rewrite NoDup_nth_error in D. apply D; [apply nth_error_Some; congruence | congruence]. }
    subst i'. exists s. split; [reflexivity|]. apply K. exists k. rewrite K2. replace n with n' by congruence. replace si with si' by congruence. auto.
Qed.
Lemma chars_typed c : (let a := tolower c in if ceq a "h" then "'"%char else a) = typed_letter c.
Proof.
  pose proof (by_chars (fun c => Ascii.eqb (let a := tolower c in if ceq a "h" then "'"%char else a) (typed_letter c)) ltac:(vm_compute; reflexivity) c) as H.
  cbv beta in H. now apply Ascii.eqb_eq in H.
Qed.
Lemma normal_typed s : normal s = map typed_letter s.
Proof. unfold normal. apply map_ext. intros. apply chars_typed. Qed.

Lemma usable_parts b r : usable b r = true -> exists k, form k r /\ medial k = true /\ (b = true -> final k = true).
Proof.
  unfold usable. destruct (kind_of r) as [k|] eqn:E; [|discriminate]. intros H. apply andb_true_iff in H. destruct H as [H1 H2].
  exists k. split; [now apply kind_of_form|]. split; auto. intros ->. exact H2.
Qed.
Lemma ends_vow k r : form k r -> ends_in_vowel r = true <-> ends_in_vow r.
Proof.
  intros F. unfold ends_in_vowel, ends_in_vow, last_of. split.
  - intros H. pose proof (form_smalls k r F) as S. destruct (form_long k r F) as [a [b [c [r' [-> _]]]]].
    exists (removelast (a :: b :: c :: r')), (last (a :: b :: c :: r') NUL). split.
    + apply app_removelast_last. discriminate.
    + apply small_v; auto. unfold smalls in S. rewrite Forall_forall in S. apply S.
      rewrite (app_removelast_last NUL (l := a :: b :: c :: r')) at 2 by discriminate. apply in_or_app. right. now left.
  - intros [r' [v [-> Hv]]]. rewrite last_last. now apply vow_facts.
Qed.

Lemma removelast_snoc {A} (l : list A) x : removelast (l ++ [x]) = l.
Proof. apply removelast_last. Qed.
Lemma five_split (t : list ascii) : List.length t = 5%nat -> exists v, t = removelast t ++ [v].
Proof. intros H. exists (last t NUL). apply app_removelast_last. destruct t; discriminate. Qed.
Lemma text_len g : List.length (text g) = String.length g.
Proof. unfold text. induction g; cbn; auto. Qed.
Lemma is_brod_spec g : String.length g = 5%nat -> is_brod (w g) = true <-> brod_series g.
Proof.
  intros L. unfold is_brod, brod_series, w. fold (text g). pose proof (text_len g) as T. rewrite L in T.
  destruct (text g) as [|a [|b [|c [|d [|e [|]]]]]]; try discriminate T. cbn [firstn].
  destruct (list_eq_dec ascii_dec [a; b; c; d] (list_ascii_of_string "brod")) as [E|N].
  - split; auto. intros _. exists e. unfold text. change [a; b; c; d; e] with ([a; b; c; d] ++ [e]). rewrite E. reflexivity.
  - split; [discriminate|]. intros [v H]. destruct N. unfold text in H. cbn in H. injection H as -> -> -> -> _. reflexivity.
Qed.

Lemma NoDup_app_remove_r {A} (l l' : list A) : NoDup (l ++ l') -> NoDup l.
Proof. induction l as [|x l IH]; cbn; intros H; constructor; inversion H; subst; auto. intros I. apply H2, in_or_app. auto. Qed.
(* the choices for one word *)
Definition empty {A} (l : list A) : bool := match l with [] => true | _ => false end.
Lemma empty_spec {A} (l : list A) : empty l = true <-> forall x, ~ In x l.
Proof. destruct l; cbn; split; auto; try discriminate. intros H. destruct (H a). now left. Qed.
Lemma rafsi_for_spec o is_last wd l : rafsi_for o is_last wd = Ok l ->
  exists g, In g gismu /\ typed wd g /\ NoDup l /\ (List.length l <= 5)%nat /\
    (forall r, In r l <-> if is_last then last_choice (uselong o) g r else other_choice (uselong o) (allowbrod o) g r) /\
    (forall r, In r l -> exists k, form k r /\ if is_last then final k = true else medial k = true).
Proof.
  unfold rafsi_for. destruct (Nat.ltb 5 (List.length wd)); [discriminate|]. cbv zeta.
  pose proof (lookup_spec (normal wd)) as L. destruct (lookup_gismu (normal wd)) as [i|]; [|discriminate].
  destruct L as [g [Hg Wg]]. intros H. pose proof (row i g Hg) as R. unfold row_ok in R. rewrite Hg in R.
  destruct (short_rafsi i) as [sh| | | |] eqn:Esh; try discriminate H. cbn [obind] in H.
  apply andb_true_iff in R. destruct R as [R R4]. apply andb_true_iff in R. destruct R as [R R3]. apply andb_true_iff in R. destruct R as [R1 R2].
  rewrite forallb_forall in R1. apply distinct_spec in R3. apply Nat.leb_le in R4.
  pose proof (short_spec i g sh Hg Esh) as Sh.
  rewrite <- Wg in H. fold (empty (filter ends_in_vowel sh)) (empty sh) in H.
  exists g. split; [now apply nth_error_In with i|]. split; [unfold typed; now rewrite <- normal_typed, <- Wg|].
  assert (Lg : List.length (w g) = String.length g) by apply text_len. rewrite Lg in H.
  assert (Sv : forall r, In r (filter ends_in_vowel sh) <-> short g r /\ ends_in_vow r).
  { intros r. rewrite filter_In, <- Sh. split; intros [I E]; split; auto; destruct (usable_parts _ _ (R1 r I)) as [k [F _]]; now apply (ends_vow k). }
  destruct is_last.
  - destruct ((uselong o || empty (filter ends_in_vowel sh)) && Nat.eqb (String.length g) 5) eqn:B; injection H as <-.
    + apply andb_true_iff in B. destruct B as [B1 B2]. rewrite B2 in R2, R3. apply Nat.eqb_eq in B2.
      apply andb_true_iff in R2. destruct R2 as [R2 _]. destruct (kind_of (w g)) as [kg|] eqn:Ek; [|discriminate R2].
      assert (B1' : uselong o = true \/ (forall r, short g r -> ~ ends_in_vow r)).
      { apply orb_true_iff in B1. destruct B1 as [B1|B1]; auto. right. intros r S1 S2. rewrite empty_spec in B1. apply (B1 r), Sv. auto. }
      split; [|split; [|split]].
      * apply NoDup_app_remove_r with (l' := [removelast (w g)]). rewrite <- app_assoc. cbn [app].
        clear -R3. induction sh as [|x sh IH]; cbn in *; auto. inversion R3; subst. destruct (ends_in_vowel x); cbn; [|auto].
        constructor; auto. intros K. apply H1. rewrite in_app_iff in *. destruct K as [K|K]; auto. apply filter_In in K. tauto.
      * rewrite app_length. cbn. assert (List.length (filter ends_in_vowel sh) <= List.length sh)%nat; [|lia].
        clear. induction sh as [|x sh IH]; cbn; auto. destruct (ends_in_vowel x); cbn; lia.
      * intros r. rewrite in_app_iff, Sv. cbn [In]. unfold last_choice. split.
        -- intros [K|[<-|[]]]; [left; exact K|]. right. split; [reflexivity|]. split; [rewrite Lg; exact B2 | exact B1'].
        -- intros [K|[-> _]]; [left; exact K | right; left; reflexivity].
      * intros r I. apply in_app_iff in I. destruct I as [I|[<-|[]]].
        -- apply filter_In in I. destruct I as [I E]. destruct (usable_parts _ _ (R1 r I)) as [k [F [_ K]]]. exists k. auto.
        -- exists kg. split; auto. now apply kind_of_form.
    + split; [|split; [|split]].
      * apply NoDup_filter. apply NoDup_app_remove_r in R3. exact R3.
      * assert (List.length (filter ends_in_vowel sh) <= List.length sh)%nat; [|lia].
        clear. induction sh as [|x sh IH]; cbn; auto. destruct (ends_in_vowel x); cbn; lia.
      * intros r. rewrite Sv. unfold last_choice. split; [auto|]. intros [K|[-> [L5 K]]]; auto.
        exfalso. apply andb_false_iff in B. destruct B as [B|B].
        -- apply orb_false_iff in B. destruct B as [B1 B2]. destruct K as [K|K]; [congruence|].
           rewrite <- not_true_iff_false, empty_spec in B2. apply B2. intros x Ix. apply Sv in Ix. now apply (K x).
        -- apply Nat.eqb_neq in B. rewrite text_len in L5. auto.
      * intros r I. apply filter_In in I. destruct I as [I E]. destruct (usable_parts _ _ (R1 r I)) as [k [F [_ K]]]. exists k. auto.
  - destruct ((uselong o || empty sh) && Nat.eqb (String.length g) 5 && (allowbrod o || negb (is_brod (w g)))) eqn:B; injection H as <-.
    + apply andb_true_iff in B. destruct B as [B B3]. apply andb_true_iff in B. destruct B as [B1 B2]. rewrite B2 in R2, R3. apply Nat.eqb_eq in B2.
      apply andb_true_iff in R2. destruct R2 as [_ R2]. destruct (usable_parts _ _ R2) as [kc [Fc [Mc _]]].
      assert (B1' : uselong o = true \/ (forall r, ~ short g r)).
      { apply orb_true_iff in B1. destruct B1 as [B1|B1]; auto. right. intros r S1. rewrite empty_spec in B1. apply (B1 r), Sh. auto. }
      assert (B3' : allowbrod o = true \/ ~ brod_series g).
      { apply orb_true_iff in B3. destruct B3 as [B3|B3]; auto. right. apply negb_true_iff in B3. rewrite <- is_brod_spec by assumption. congruence. }
      destruct (five_split (w g)) as [v Ev]; [congruence|].
      assert (L4 : List.length (chop_last_char (w g)) = 4%nat).
      { unfold chop_last_char. assert (K : List.length (removelast (w g) ++ [v]) = 5%nat) by (rewrite <- Ev; congruence). rewrite app_length in K. cbn in K. lia. }
      split; [|split; [|split]].
      * change [w g; removelast (w g)] with ([w g] ++ [removelast (w g)]) in R3. clear -R3.
        induction sh as [|x sh IH]; cbn in *; [repeat constructor; intros []|]. inversion R3; subst. constructor; auto. intros K. apply H1.
        rewrite in_app_iff in *. destruct K as [K|[<-|[]]]; auto. right. right. left. reflexivity.
      * rewrite app_length. cbn. lia.
      * intros r. rewrite in_app_iff, Sh. cbn [In]. unfold other_choice. split.
        -- intros [K|[<-|[]]]; [left; exact K|]. right. split; [exists v; exact Ev|]. auto.
        -- intros [K|[[v' Ev'] _]]; [left; exact K | right; left]. unfold chop_last_char, w. fold (text g). rewrite Ev'. apply removelast_snoc.
      * intros r I. apply in_app_iff in I. destruct I as [I|[<-|[]]].
        -- destruct (usable_parts _ _ (R1 r I)) as [k [F [M _]]]. eauto.
        -- exists kc. auto.
    + split; [|split; [|split]].
      * apply NoDup_app_remove_r in R3. exact R3.
      * lia.
      * intros r. rewrite Sh. unfold other_choice. split; [auto|]. intros [K|[[v Ev] [L4 [K1 K2]]]]; auto.
        assert (L5 : String.length g = 5%nat) by (rewrite <- text_len, Ev, app_length; cbn; lia).
        exfalso. apply andb_false_iff in B. destruct B as [B|B]; [apply andb_false_iff in B; destruct B as [B|B]|].
        -- apply orb_false_iff in B. destruct B as [B1 B2]. destruct K1 as [K1|K1]; [congruence|].
           rewrite <- not_true_iff_false, empty_spec in B2. apply B2. intros x Ix. apply Sh in Ix. now apply (K1 x).
        -- apply Nat.eqb_neq in B. auto.
        -- apply orb_false_iff in B. destruct B as [B1 B2]. apply negb_false_iff in B2. apply is_brod_spec in B2; auto. destruct K2; congruence.
      * intros r I. destruct (usable_parts _ _ (R1 r I)) as [k [F [M _]]]. eauto.
Qed.
