(* Gismu: from tokens to letters. *)
From Coq Require Import String Ascii List NArith Bool Arith Lia.
From Verif Require Import Base Arr DfaModel DfaTables MorfModel LujvoSpec MorfSpec MorfProofs MorfProofs2 MorfProofs3 MorfProofs4 MorfProofs5 MorfProofs6 MorfProofs7 MorfProofs8.
Import ListNotations.
Open Scope N_scope.
Open Scope list_scope.

Definition gc (c : ascii) : N := snd (mapchar c).
(* what the codes tell about characters that are not capitals *)
Definition char_facts (c : ascii) : bool :=
  if capital c then true else
  if gc c <? 32 then
  if Bool.eqb (cons c) (consg (gc c)) then
  if Bool.eqb (vow c) (cls "aeiou" (fe_char (gc c))) then
  if Ascii.eqb (fe_char (gc c)) c then (if cons c then N.eqb (vmapchar c) 1 else true)
  else if cons c then false else if vow c then false else true
  else false else false else false.
Lemma char_fact c : capital c = false ->
  gc c < 32 /\ cons c = consg (gc c) /\ vow c = cls "aeiou" (fe_char (gc c))
  /\ (fe_char (gc c) = c \/ cons c = false /\ vow c = false) /\ (cons c = true -> vmapchar c = 1).
Proof.
  intro H. pose proof (LujvoProofs.by_chars char_facts ltac:(vm_compute; reflexivity) c) as K. unfold char_facts in K. rewrite H in K.
  destruct (gc c <? 32) eqn:E1; [|discriminate]. apply N.ltb_lt in E1.
  destruct (Bool.eqb (cons c) (consg (gc c))) eqn:E2; [|discriminate]. apply Bool.eqb_prop in E2.
  destruct (Bool.eqb (vow c) (cls "aeiou" (fe_char (gc c)))) eqn:E3; [|discriminate]. apply Bool.eqb_prop in E3.
  split; [exact E1|]. split; [exact E2|]. split; [exact E3|].
  destruct (Ascii.eqb_spec (fe_char (gc c)) c) as [E4|E4].
  - split; [left; exact E4|]. intro C. rewrite C in K. now apply N.eqb_eq.
  - destruct (cons c); [discriminate|]. destruct (vow c); [discriminate|]. split; [right; auto|discriminate].
Qed.
(* entries of the front-end table *)
Definition entry_facts (L Sv g : N) : bool :=
  let e := inact L Sv g in
  let t := fe_tok e in
  let a := fe_char Sv in
  let b := fe_char g in
  if Bool.eqb (N.eqb t 1) (cls "aeiou" b) then
  if N.eqb L 0 then
    if N.eqb Sv 0 then
      (if Bool.eqb (tset t) (consg g) then if consg g then Bool.eqb (N.eqb t 6) (if cls "rn" b then false else true) else true else false)
    else if consg Sv then
      (if Bool.eqb (permissible a b) (among_n [7; 8; 9; 10; 11] t) then Bool.eqb (initial_pair a b) (among_n [8; 9] t) else false)
    else true
  else true
  else false.
Lemma entry_facts_checked : forallb (fun L => forallb (fun Sv => if N.eqb Sv 0 then forallb (fun g => entry_facts L Sv g) (upto 32) else
   if consg Sv then forallb (fun g => entry_facts L Sv g) (upto 32) else true) (upto 32)) (upto 4) = true.
Proof. vm_compute. reflexivity. Qed.
Lemma entry_fact L Sv g : L < 4 -> Sv < 32 -> g < 32 -> Sv = 0 \/ consg Sv = true -> entry_facts L Sv g = true.
Proof.
  intros H1 H2 H3 H4. pose proof (by_upto _ _ (by_upto _ _ entry_facts_checked L H1) Sv H2) as K. cbv beta in K.
  destruct (N.eqb Sv 0) eqn:E; [exact (by_upto _ _ K g H3)|].
  destruct H4 as [->|H4]; [discriminate|]. rewrite H4 in K. exact (by_upto _ _ K g H3).
Qed.

(* ---- the states between the letters of a gismu ---- *)
Definition v_ok (f : front) : Prop := let '(v1, v2, v3) := f_v f in 1 <= v1 < 8 /\ 1 <= v2 < 8 /\ 1 <= v3 < 8.
Definition clear (f : front) : Prop := f_L f = 0 /\ f_S f = 0 /\ v_ok f.
(* after one consonant *)
Definition one_c (f : front) (a : ascii) : Prop :=
  f_L f = 0 /\ f_S f = gc a /\ v_ok f /\ snd (f_v f) = 1.
Definition two_c (f : front) (a b : ascii) : Prop :=
  f_L f < 4 /\ f_S f = gc b /\ v_ok f /\ snd (f_v f) = 1.
Definition nocap (c : ascii) : Prop := capital c = false /\ c <> ","%char.

Lemma ftok_unfold f c : ftok f c = let '(v1, v2, v3) := f_v f in
  let e := inact (f_L f) (f_S f) (gc c) in
  let tok := fe_tok e in
  if N.eqb tok 1 || N.eqb tok 3 then vcheck v2 v3 (vmapchar c)
  else if N.eqb v2 0 && N.eqb v3 0 then 0 else tok.
Proof. unfold ftok, flook, letter_token, gc. destruct (f_v f) as [[v1 v2] v3]. reflexivity. Qed.

Lemma vc_vowel_checked : forallb (fun i => forallb (fun k => if 3 <=? k then N.eqb (vcheck i 1 k) 1 else if N.eqb k 2 then N.eqb (vcheck i 1 k) 3 else true) (upto 8)) (upto 8) = true.
Proof. vm_compute. reflexivity. Qed.
Lemma vm_vowel c : capital c = false -> vow c = true -> 3 <= vmapchar c.
Proof.
  intros H V. pose proof (LujvoProofs.by_chars (fun c => if capital c then true else if vow c then 3 <=? vmapchar c else true) ltac:(vm_compute; reflexivity) c) as K.
  cbv beta in K. rewrite H, V in K. now apply N.leb_le.
Qed.
Lemma fe3_checked : forallb (fun L => forallb (fun Sv => forallb (fun g => if N.eqb (fe_tok (inact L Sv g)) 3 then N.eqb g 25 else
    (fe_tok (inact L Sv g)) <? 16) (upto 32)) (upto 32)) (upto 4) = true.
Proof. vm_compute. reflexivity. Qed.
Lemma y_char c : gc c = 25 -> vmapchar c = 2.
Proof.
  intro H. pose proof (LujvoProofs.by_chars (fun c => if N.eqb (gc c) 25 then N.eqb (vmapchar c) 2 else true) ltac:(vm_compute; reflexivity) c) as K.
  cbv beta in K. rewrite H in K. now apply N.eqb_eq.
Qed.
(* a vowel after a consonant *)
Lemma vowel_after f c : nocap c -> f_L f < 4 -> f_S f < 32 -> f_S f = 0 \/ consg (f_S f) = true -> v_ok f -> snd (f_v f) = 1 ->
  (ftok f c = 1 <-> vow c = true).
Proof.
  intros [Hc Nc] HL HS HSc Hv H1. destruct (char_fact c Hc) as (G32 & _ & V & _).
  rewrite ftok_unfold. unfold v_ok in Hv. destruct (f_v f) as [[v1 v2] v3]. cbn [snd] in H1. subst v3.
  pose proof (entry_fact _ _ _ HL HS G32 HSc) as E. unfold entry_facts in E.
  set (e := inact (f_L f) (f_S f) (gc c)) in *. cbv zeta.
  destruct (Bool.eqb (N.eqb (fe_tok e) 1) (cls "aeiou" (fe_char (gc c)))) eqn:Q; [|discriminate]. apply Bool.eqb_prop in Q. rewrite <- V in Q. clear E.
  pose proof (by_upto _ _ (by_upto _ _ vc_vowel_checked v2 ltac:(lia)) (vmapchar c) (vmap_lt c)) as K. cbv beta in K.
  destruct (vow c) eqn:Vc.
  - rewrite Q. cbn [orb]. pose proof (vm_vowel c Hc Vc) as M. apply N.leb_le in M. rewrite M in K. apply N.eqb_eq in K. tauto.
  - rewrite Q. cbn [orb]. destruct (N.eqb (fe_tok e) 3) eqn:T3.
    + pose proof (by_upto _ _ (by_upto _ _ (by_upto _ _ fe3_checked _ HL) _ HS) _ G32) as F. cbv beta in F. fold e in F. rewrite T3 in F.
      apply N.eqb_eq in F. rewrite (y_char c F) in K |- *. change (3 <=? 2) with false in K. change (N.eqb 2 2) with true in K.
      apply N.eqb_eq in K. rewrite K. split; discriminate.
    + destruct (N.eqb v2 0 && N.eqb 1 0); [split; discriminate|]. apply N.eqb_neq in Q. split; [contradiction|discriminate].
Qed.
Lemma cons_not_vowel : forallb (fun L => forallb (fun Sv => forallb (fun g => if consg g then
    if N.eqb (fe_tok (inact L Sv g)) 1 then false else if N.eqb (fe_tok (inact L Sv g)) 3 then false else
    (if N.eqb (fe_tok (inact L Sv g)) 0 then true else match fe_act (inact L Sv g) with AC_SFT => true | _ => false end)
   else negb (among_n [4; 5; 6; 7; 8; 9; 10; 11] (fe_tok (inact L Sv g)))) (upto 32)) (upto 32)) (upto 4) = true.
Proof. vm_compute. reflexivity. Qed.
Lemma vc_small i j k : i < 8 -> j < 8 -> k < 8 -> among_n [0; 1; 3; 16; 17; 18; 19; 20] (vcheck i j k) = true.
Proof.
  intros H1 H2 H3. assert (X : forallb (fun i => forallb (fun j => forallb (fun k => among_n [0; 1; 3; 16; 17; 18; 19; 20] (vcheck i j k)) (upto 8)) (upto 8)) (upto 8) = true)
    by (vm_compute; reflexivity).
  exact (by_upto _ _ (by_upto _ _ (by_upto _ _ X i H1) j H2) k H3).
Qed.
(* the token of a letter when it is a cluster token *)
Lemma cluster_tok f c l : l = [4; 5; 6] \/ l = [6] \/ l = [8; 9] \/ l = [7; 8; 9; 10; 11] -> nocap c -> f_L f < 4 -> f_S f < 32 -> v_ok f ->
  among_n l (ftok f c) = among_n l (fe_tok (inact (f_L f) (f_S f) (gc c))).
Proof.
  intros Hl [Hc Nc] HL HS Hv. destruct (char_fact c Hc) as (G32 & Cc & _).
  rewrite ftok_unfold. unfold v_ok in Hv. destruct (f_v f) as [[v1 v2] v3]. destruct Hv as (A1 & A2 & A3).
  cbv zeta. replace (N.eqb v2 0) with false by (symmetry; apply N.eqb_neq; lia). cbn [andb].
  pose proof (vc_small v2 v3 (vmapchar c) ltac:(lia) ltac:(lia) (vmap_lt c)) as V.
  destruct (N.eqb (fe_tok (inact (f_L f) (f_S f) (gc c))) 1 || N.eqb (fe_tok (inact (f_L f) (f_S f) (gc c))) 3) eqn:T; [|reflexivity].
  assert (among_n l (vcheck v2 v3 (vmapchar c)) = false).
  { apply among_n_in in V. cbn in V. destruct Hl as [-> | [-> | [-> | ->]]];
      repeat (destruct V as [V|V]; [rewrite <- V; reflexivity|]); destruct V. }
  rewrite H. apply orb_prop in T. destruct T as [T|T]; apply N.eqb_eq in T; rewrite T; destruct Hl as [-> | [-> | [-> | ->]]]; reflexivity.
Qed.

Lemma v_ok_next f c : c <> ","%char -> v_ok f -> v_ok (fgo f c).
Proof.
  intros Nc H. unfold v_ok, fgo, fnext in *. destruct (f_v f) as [[v1 v2] v3].
  assert (1 <= vmapchar c < 8).
  { pose proof (char_of c) as K. unfold chars_ok in K. destruct (snd (mapchar c) <? 32); [|discriminate].
    destruct (vmapchar c <? 8) eqn:E; [|discriminate]. apply N.ltb_lt in E.
    destruct (Ascii.eqb_spec c ","); [contradiction|]. destruct (N.eqb_spec (vmapchar c) 0); [discriminate|]. lia. }
  destruct (fe_act _); cbn [f_v]; lia.
Qed.
Lemma fgo_sft f c : fe_act (inact (f_L f) (f_S f) (gc c)) = AC_SFT -> f_L (fgo f c) = s2l (f_S f) /\ f_S (fgo f c) = gc c /\ snd (f_v (fgo f c)) = vmapchar c.
Proof.
  intro H. unfold fgo, fnext, flook, letter_token. destruct (f_v f) as [[v1 v2] v3]. cbn [snd]. fold (gc c). rewrite H. auto.
Qed.
Lemma fgo_clr f c : fe_act (inact (f_L f) (f_S f) (gc c)) = AC_CLR -> f_L (fgo f c) = 0 /\ f_S (fgo f c) = 0 /\ snd (f_v (fgo f c)) = vmapchar c.
Proof.
  intro H. unfold fgo, fnext, flook, letter_token. destruct (f_v f) as [[v1 v2] v3]. cbn [snd]. fold (gc c). rewrite H. auto.
Qed.
Lemma tset_among t : tset t = among_n [4; 5; 6] t.
Proof.
  unfold tset, among_n. cbn [existsb]. rewrite orb_false_r.
  destruct (N.eqb_spec t 4); [subst; reflexivity|]. destruct (N.eqb_spec t 5); [subst; reflexivity|].
  destruct (N.eqb_spec t 6); [subst; reflexivity|]. cbn [orb]. apply andb_false_iff. rewrite !N.leb_gt. lia.
Qed.
Lemma cons_act L Sv c : L < 4 -> Sv < 32 -> capital c = false -> cons c = true -> fe_tok (inact L Sv (gc c)) <> 0 -> fe_act (inact L Sv (gc c)) = AC_SFT.
Proof.
  intros HL HS Hc Cc Nz. destruct (char_fact c Hc) as (G32 & Q & _). rewrite Cc in Q.
  pose proof (by_upto _ _ (by_upto _ _ (by_upto _ _ cons_not_vowel L HL) Sv HS) (gc c) G32) as K. cbv beta in K. rewrite <- Q in K.
  destruct (N.eqb (fe_tok (inact L Sv (gc c))) 1); [discriminate|]. destruct (N.eqb (fe_tok (inact L Sv (gc c))) 3); [discriminate|].
  destruct (N.eqb_spec (fe_tok (inact L Sv (gc c))) 0); [contradiction|]. destruct (fe_act (inact L Sv (gc c))); congruence.
Qed.
(* a first consonant *)
Lemma first_cons f c : nocap c -> clear f ->
  (tset (ftok f c) = true <-> cons c = true) /\
  (cons c = true -> one_c (fgo f c) c) /\ (cons c = true -> (ftok f c = 6 <-> among "rn" c = false)).
Proof.
  intros Nc (HL & HS & Hv). destruct Nc as [Hc Nc].
  destruct (char_fact c Hc) as (G32 & Q & _ & Fc & Vc).
  pose proof (entry_fact 0 0 (gc c) ltac:(lia) ltac:(lia) G32 (or_introl eq_refl)) as E. unfold entry_facts in E.
  destruct (Bool.eqb (N.eqb (fe_tok (inact 0 0 (gc c))) 1) (cls "aeiou" (fe_char (gc c)))); [|discriminate]. cbn [N.eqb] in E.
  destruct (Bool.eqb (tset (fe_tok (inact 0 0 (gc c)))) (consg (gc c))) eqn:E1; [|discriminate]. apply Bool.eqb_prop in E1.
  assert (T : tset (ftok f c) = cons c).
  { rewrite tset_among, (cluster_tok f c [4; 5; 6] ltac:(auto) (conj Hc Nc) ltac:(rewrite HL; lia) ltac:(rewrite HS; lia) Hv). rewrite HL, HS, <- tset_among, E1. now symmetry. }
  split; [rewrite T; reflexivity|]. split.
  - intro C. assert (A : fe_act (inact (f_L f) (f_S f) (gc c)) = AC_SFT).
    { apply cons_act; auto; rewrite ?HL, ?HS; try lia. intro Z. rewrite Z in E1. rewrite <- Q, C in E1. discriminate. }
    destruct (fgo_sft f c A) as (A1 & A2 & A3). split; [rewrite A1, HS; reflexivity|]. split; [exact A2|].
    split; [now apply v_ok_next|]. rewrite A3. auto.
  - intro C. rewrite <- Q, C in E. apply Bool.eqb_prop in E.
    assert (X : among_n [6] (ftok f c) = among_n [6] (fe_tok (inact 0 0 (gc c)))).
    { rewrite (cluster_tok f c [6] ltac:(auto) (conj Hc Nc) ltac:(rewrite HL; lia) ltac:(rewrite HS; lia) Hv). now rewrite HL, HS. }
    unfold among_n in X. cbn [existsb] in X. rewrite !orb_false_r in X. rewrite <- N.eqb_eq, X, E.
    destruct Fc as [Fc|[Fc _]]; [|congruence]. rewrite Fc. unfold among, text, cls.
    destruct (existsb (Ascii.eqb c) (list_ascii_of_string "rn")); split; congruence.
Qed.
Local Transparent permissible initial_pair.
Lemma init_not_rn a b : initial_pair a b = true -> among "rn" a = false.
Proof.
  unfold initial_pair, pair_in. intro H. apply existsb_exists in H. destruct H as (s & Hs & E).
  destruct (list_eq_dec ascii_dec (text s) [a; b]) as [Q|]; [|discriminate].
  assert (X : forallb (fun s => match text s with [a; b] => negb (among "rn" a) | _ => false end) initials = true) by (vm_compute; reflexivity).
  rewrite forallb_forall in X. specialize (X s Hs). rewrite Q in X. now apply negb_true_iff.
Qed.
Lemma initial_perm a b : initial_pair a b = true -> cons a = true /\ cons b = true.
Proof.
  unfold initial_pair, pair_in. intro H. apply existsb_exists in H. destruct H as (s & Hs & E).
  destruct (list_eq_dec ascii_dec (text s) [a; b]) as [Q|]; [|discriminate].
  assert (X : forallb (fun s => match text s with [a; b] => cons a && cons b | _ => false end) initials = true) by (vm_compute; reflexivity).
  rewrite forallb_forall in X. specialize (X s Hs). rewrite Q in X. now apply andb_prop in X.
Qed.
Lemma perm_cons a b : permissible a b = true -> cons a = true /\ cons b = true.
Proof. unfold permissible. intro H. repeat (apply andb_prop in H; destruct H as [H ?]). auto. Qed.
Lemma perm_no a b : cons b = false -> permissible a b = false.
Proof. intro H. unfold permissible. rewrite H, andb_false_r. reflexivity. Qed.
Local Opaque permissible initial_pair.
Lemma cons_code : forallb (fun g => Bool.eqb (cons (fe_char g)) (consg g)) (upto 32) = true.
Proof. vm_compute. reflexivity. Qed.
(* a second letter *)
Lemma second_cons f a c : nocap c -> capital a = false -> cons a = true -> one_c f a ->
  (among_n [7; 8; 9; 10; 11] (ftok f c) = permissible a c) /\ (among_n [8; 9] (ftok f c) = initial_pair a c) /\
  (permissible a c = true \/ initial_pair a c = true -> two_c (fgo f c) a c).
Proof.
  intros Nc Ha Ca (HL & HS & Hv & H1). destruct Nc as [Hc Nc].
  destruct (char_fact c Hc) as (G32 & Q & _ & Fc & Vc). destruct (char_fact a Ha) as (Ga & Qa & _ & Fa & _). rewrite Ca in Qa.
  pose proof (entry_fact 0 (gc a) (gc c) ltac:(lia) Ga G32 (or_intror (eq_sym Qa))) as E. unfold entry_facts in E.
  destruct (Bool.eqb (N.eqb (fe_tok (inact 0 (gc a) (gc c))) 1) (cls "aeiou" (fe_char (gc c)))); [|discriminate]. change (N.eqb 0 0) with true in E. cbv iota in E.
  assert (Nz : N.eqb (gc a) 0 = false) by (apply N.eqb_neq, consg_nz; auto). rewrite Nz, <- Qa in E.
  destruct Fa as [Fa|[Fa _]]; [|congruence]. rewrite Fa in E.
  destruct (Bool.eqb (permissible a (fe_char (gc c))) (among_n [7; 8; 9; 10; 11] (fe_tok (inact 0 (gc a) (gc c))))) eqn:E1; [|discriminate].
  apply Bool.eqb_prop in E1, E.
  assert (P : permissible a (fe_char (gc c)) = permissible a c /\ initial_pair a (fe_char (gc c)) = initial_pair a c).
  { destruct Fc as [Fc|[Fc _]]; [rewrite Fc; auto|]. rewrite Fc in Q.
    assert (cons (fe_char (gc c)) = false) as K.
    { pose proof (by_upto _ _ cons_code (gc c) G32) as K. cbv beta in K. apply Bool.eqb_prop in K. rewrite K. now symmetry. }
    split.
    - rewrite (perm_no _ _ K), (perm_no _ _ Fc). reflexivity.
    - destruct (initial_pair a c) eqn:I1; [apply initial_perm in I1; destruct I1; congruence|].
      destruct (initial_pair a (fe_char (gc c))) eqn:I2; [apply initial_perm in I2; destruct I2; congruence|reflexivity]. }
  destruct P as [P1 P2]. rewrite P1 in E1. rewrite P2 in E.
  assert (B : forall l, l = [8; 9] \/ l = [7; 8; 9; 10; 11] -> among_n l (ftok f c) = among_n l (fe_tok (inact 0 (gc a) (gc c)))).
  { intros l Hl. rewrite (cluster_tok f c l ltac:(tauto) (conj Hc Nc) ltac:(rewrite HL; lia) ltac:(rewrite HS; exact Ga) Hv). now rewrite HL, HS. }
  rewrite !B by auto. split; [symmetry; exact E1|]. split; [symmetry; exact E|].
  intro Pc.
  assert (Cc : cons c = true).
  { destruct Pc as [Pc|Pc]; [|apply initial_perm in Pc; apply Pc]. apply perm_cons in Pc. apply Pc. }
  assert (Nt : fe_tok (inact (f_L f) (f_S f) (gc c)) <> 0).
  { rewrite HL, HS. intro Z. rewrite Z in E1, E. cbn in E1, E. destruct Pc; congruence. }
  pose proof (cons_act (f_L f) (f_S f) c ltac:(rewrite HL; lia) ltac:(rewrite HS; exact Ga) Hc Cc Nt) as A.
  destruct (fgo_sft f c A) as (A1 & A2 & A3). split; [rewrite A1; apply s2l_bound; rewrite HS; exact Ga|].
  split; [exact A2|]. split; [now apply v_ok_next|]. rewrite A3. auto.
Qed.
Lemma vowel_act : forallb (fun L => forallb (fun Sv => forallb (fun g => if N.eqb (fe_tok (inact L Sv g)) 1 then
   match fe_act (inact L Sv g) with AC_CLR => true | _ => false end else true) (upto 32)) (upto 32)) (upto 4) = true.
Proof. vm_compute. reflexivity. Qed.
(* a vowel *)
Lemma a_vowel f c : nocap c -> f_L f < 4 -> f_S f < 32 -> consg (f_S f) = true -> v_ok f -> snd (f_v f) = 1 ->
  (ftok f c = 1 <-> vow c = true) /\ (vow c = true -> clear (fgo f c)).
Proof.
  intros Nc HL HS HC Hv H1. split; [now apply vowel_after; auto|]. intro V.
  destruct (char_fact c (proj1 Nc)) as (G32 & _ & Q & _).
  pose proof (entry_fact _ _ _ HL HS G32 (or_intror HC)) as E. unfold entry_facts in E.
  destruct (Bool.eqb (N.eqb (fe_tok (inact (f_L f) (f_S f) (gc c))) 1) (cls "aeiou" (fe_char (gc c)))) eqn:T; [|discriminate]. apply Bool.eqb_prop in T.
  rewrite <- Q, V in T. pose proof (by_upto _ _ (by_upto _ _ (by_upto _ _ vowel_act _ HL) _ HS) _ G32) as A. cbv beta in A. rewrite T in A.
  destruct (fe_act (inact (f_L f) (f_S f) (gc c))) eqn:Ac; try discriminate.
  destruct (fgo_clr f c Ac) as (A1 & A2 & A3). split; [exact A1|]. split; [exact A2|]. apply v_ok_next; [apply Nc|exact Hv].
Qed.
Lemma one_c_vowel f a c : nocap c -> capital a = false -> cons a = true -> one_c f a -> (ftok f c = 1 <-> vow c = true) /\ (vow c = true -> clear (fgo f c)).
Proof.
  intros Nc Ha Ca (HL & HS & Hv & H1). destruct (char_fact a Ha) as (Ga & Qa & _).
  apply a_vowel; auto; rewrite ?HL, ?HS; [lia|exact Ga|congruence].
Qed.
Lemma two_c_vowel f a b c : nocap c -> capital b = false -> cons b = true -> two_c f a b -> (ftok f c = 1 <-> vow c = true) /\ (vow c = true -> clear (fgo f c)).
Proof.
  intros Nc Ha Ca (HL & HS & Hv & H1). destruct (char_fact b Ha) as (Ga & Qa & _).
  apply a_vowel; auto; rewrite ?HS; [exact Ga|congruence].
Qed.
Lemma clear_init : clear f_init.
Proof. split; [reflexivity|]. split; [reflexivity|]. cbn. lia. Qed.

Ltac nc := match goal with H : nocap ?x |- capital ?x = false => exact (proj1 H) end.
Lemma shape_form l : Forall nocap l -> (qacc (qrun 0 (tks f_init l)) = true <-> gismu_form l).
Proof.
  intro Nl. split.
  - intro H. assert (Len : length l = 5%nat).
    { rewrite <- (tks_length l f_init). destruct (qacc_shape _ H) as [(c1 & c2 & cc & -> & _)|(cc & c2 & -> & _)]; reflexivity. }
    destruct l as [|a [|b [|c [|d [|e [|? ?]]]]]]; try discriminate.
    repeat match goal with H : Forall nocap (_ :: _) |- _ => inversion H; clear H; subst end.
    cbn [tks] in H. pose proof (first_cons f_init a ltac:(assumption) clear_init) as (F1 & F2 & F3).
    destruct (qacc_shape _ H) as [(c1 & c2 & cc & E & T1 & T2 & T3)|(cc & c2 & E & T2 & T3)].
    + injection E as E1 E2 E3 E4 E5. rewrite <- E1 in T1. apply F1 in T1. specialize (F2 T1).
      pose proof (one_c_vowel _ a b ltac:(assumption) ltac:(nc) T1 F2) as (V1 & V2). apply V1 in E2. specialize (V2 E2).
      pose proof (first_cons _ c ltac:(assumption) V2) as (W1 & W2 & _). rewrite <- E3 in T2. apply W1 in T2. specialize (W2 T2).
      pose proof (second_cons _ c d ltac:(assumption) ltac:(nc) T2 W2) as (S1 & _ & S3). rewrite <- E4, S1 in T3.
      specialize (S3 (or_introl T3)).
      pose proof (two_c_vowel _ c d e ltac:(assumption) ltac:(nc) (proj2 (perm_cons _ _ T3)) S3) as (U1 & _). apply U1 in E5.
      left. now constructor.
    + injection E as E1 E2 E3 E4 E5. assert (T1 : cons a = true) by (apply F1; rewrite E1; reflexivity). specialize (F2 T1).
      pose proof (second_cons _ a b ltac:(assumption) ltac:(nc) T1 F2) as (_ & S2 & S3). rewrite <- E2, S2 in T3. specialize (S3 (or_intror T3)).
      pose proof (two_c_vowel _ a b c ltac:(assumption) ltac:(nc) (proj2 (initial_perm _ _ T3)) S3) as (V1 & V2). apply V1 in E3. specialize (V2 E3).
      pose proof (first_cons _ d ltac:(assumption) V2) as (W1 & W2 & _). rewrite <- E4 in T2. apply W1 in T2. specialize (W2 T2).
      pose proof (one_c_vowel _ d e ltac:(assumption) ltac:(nc) T2 W2) as (U1 & _). apply U1 in E5.
      right. now constructor.
  - intros [F|F]; inversion F as [| | | | | |a b c d e Ca Vb Pc Ve X|a b c d e I Vc Cd Ve X]; subst;
      repeat match goal with H : Forall nocap (_ :: _) |- _ => inversion H; clear H; subst end; cbn [tks].
    + pose proof (first_cons f_init a ltac:(assumption) clear_init) as (F1 & F2 & F3). apply F1 in Ca as T1. specialize (F2 Ca).
      pose proof (one_c_vowel _ a b ltac:(assumption) ltac:(nc) Ca F2) as (V1 & V2). apply V1 in Vb as T2. specialize (V2 Vb).
      destruct (perm_cons _ _ Pc) as [Cc Cd].
      pose proof (first_cons _ c ltac:(assumption) V2) as (W1 & W2 & _). apply W1 in Cc as T3. specialize (W2 Cc).
      pose proof (second_cons _ c d ltac:(assumption) ltac:(nc) Cc W2) as (S1 & _ & S3). rewrite Pc in S1. specialize (S3 (or_introl Pc)).
      pose proof (two_c_vowel _ c d e ltac:(assumption) ltac:(nc) Cd S3) as (U1 & _). apply U1 in Ve as T5.
      unfold qrun. cbn [fold_left]. rewrite T2, T5. unfold qstep at 5. rewrite T1.
      assert (qstep (if N.eqb (ftok f_init a) 6 then 1 else 12) 1 = 2) as E by (destruct (N.eqb (ftok f_init a) 6); reflexivity).
      change (N.eqb 0 0) with true. cbv iota. rewrite E. unfold qstep at 3. cbn [N.eqb Pos.eqb]. rewrite T3.
      unfold qstep at 2. cbn [N.eqb Pos.eqb]. rewrite S1. reflexivity.
    + destruct (initial_perm _ _ I) as [Ca Cb].
      pose proof (first_cons f_init a ltac:(assumption) clear_init) as (F1 & F2 & F3). specialize (F2 Ca).
      assert (T1 : ftok f_init a = 6) by (apply (F3 Ca); exact (init_not_rn _ _ I)).
      pose proof (second_cons _ a b ltac:(assumption) ltac:(nc) Ca F2) as (_ & S2 & S3). rewrite I in S2. specialize (S3 (or_intror I)).
      pose proof (two_c_vowel _ a b c ltac:(assumption) ltac:(nc) Cb S3) as (V1 & V2). apply V1 in Vc as T3. specialize (V2 Vc).
      pose proof (first_cons _ d ltac:(assumption) V2) as (W1 & W2 & _). apply W1 in Cd as T4. specialize (W2 Cd).
      pose proof (one_c_vowel _ d e ltac:(assumption) ltac:(nc) Cd W2) as (U1 & _). apply U1 in Ve as T5.
      assert (N1 : N.eqb (ftok (fgo f_init a) b) 1 = false).
      { destruct (N.eqb_spec (ftok (fgo f_init a) b) 1) as [Z|]; [|reflexivity]. rewrite Z in S2. discriminate. }
      unfold qrun. cbn [fold_left]. rewrite T1, T3, T5. change (qstep 0 6) with 1.
      unfold qstep at 4. cbn [N.eqb Pos.eqb]. rewrite N1, S2. change (qstep 6 1) with 7. unfold qstep at 2. cbn [N.eqb Pos.eqb]. rewrite T4. reflexivity.
Qed.

Lemma gismu_cat r : fst (category r) = W_GISMU -> r = "R_GISMU_0"%string /\ snd (category r) = false \/ r = "R_GISMU_1"%string /\ snd (category r) = true.
Proof.
  unfold category. destruct (find _ categories) as [[n [cc dd]]|] eqn:Fd; [|discriminate].
  apply find_some in Fd. destruct Fd as [Fd E]. cbn [fst snd] in *. apply String.eqb_eq in E. subst n. intros ->. cbn in Fd.
  repeat (destruct Fd as [Fd|Fd]; [try discriminate; injection Fd; intros; subst; auto|]). destruct Fd.
Qed.
Lemma letters_in c w : In c (letters_of w) -> In c w /\ c <> ","%char.
Proof. unfold letters_of. intro H. apply filter_In in H. destruct H as [H E]. split; [exact H|]. unfold comma in E. destruct (Ascii.eqb_spec c ","); [discriminate|assumption]. Qed.
Lemma nocap_all w : existsb capital w = false -> Forall nocap (letters_of w).
Proof.
  intro H. apply Forall_forall. intros c Hc. apply letters_in in Hc. destruct Hc as [Hc Nc]. split; [|exact Nc].
  destruct (capital c) eqn:E; [|reflexivity]. rewrite <- H. symmetry. apply existsb_exists. eauto.
Qed.
Lemma gismu_nocap w : gismu_form (letters_of w) -> existsb capital w = false.
Proof.
  assert (Low : forall c, cons c = true \/ vow c = true -> capital c = false).
  { intros c H. pose proof (LujvoProofs.by_chars (fun c => if cons c || vow c then negb (capital c) else true) ltac:(vm_compute; reflexivity) c) as K.
    cbv beta in K. destruct H as [H|H]; rewrite H in K; cbn in K; try rewrite orb_true_r in K; now apply negb_true_iff in K. }
  intro F. assert (A : Forall (fun c => capital c = false) (letters_of w)).
  { destruct F as [F|F]; inversion F as [| | | | | |a b c d e Ca Vb Pc Ve X|a b c d e I Vc Cd Ve X]; subst.
    - destruct (perm_cons _ _ Pc). repeat constructor; apply Low; auto.
    - destruct (initial_perm _ _ I). repeat constructor; apply Low; auto. }
  destruct (existsb capital w) eqn:E; [|reflexivity]. apply existsb_exists in E. destruct E as (c & Hc & Cc).
  rewrite Forall_forall in A. rewrite <- Cc. apply A. unfold letters_of. apply filter_In. split; [exact Hc|].
  unfold comma. destruct (Ascii.eqb_spec c ","); [subst; discriminate|reflexivity].
Qed.

Lemma gismu_exact cult w :
  (exists r p, morf_scan cult w = Ok r /\ sc_type r = MT_GISMU /\ sc_starts r = [p]) <-> gismu_form (letters_of w).
Proof.
  split.
  - intros (r & p & E & Ty & Ss). rewrite scan_ok in E. destruct (trun t_init (toks_of w)) as [st|] eqn:Et.
    2:{ injection E as <-. discriminate. }
    assert (Ac : accepted (sc_type r)) by (rewrite Ty; repeat split; discriminate).
    destruct (followed w st Et) as (x & gs & I & _).
    destruct (end_type _ _ _ _ E Ac) as (Nu & Ty' & Cases). cbn [m_upper m_state m_starts m_cstart conc] in *.
    rewrite ups_capital in Nu. rewrite (exit_ok _ (i_ms _ _ _ _ I)) in *.
    apply (shape_form _ (nocap_all w Nu)). apply (gismu_tokens w st Et).
    rewrite Ty in Ty'. assert (C : fst (category (exit_of (ts_m st))) = W_GISMU).
    { destruct (fst (category (exit_of (ts_m st)))); try discriminate; try reflexivity. cbn in Ty'. destruct cult; discriminate. }
    rewrite C in Cases. destruct Cases as [[_ S]|[[X _]|[X _]]]; try discriminate.
    destruct (gismu_cat _ C) as [[X D]|[X D]]; rewrite Ss, D in S; apply (f_equal (@length nat)) in S; rewrite rev_length in S; cbn [List.length] in S.
    + left. auto.
    + right. split; [exact X|].
      destruct (ts_starts st) as [|a l]; cbn in S |- *; [discriminate|]. lia.
  - intro F. pose proof (gismu_nocap w F) as Nc.
    assert (Q : qacc (qrun 0 (tks f_init (letters_of w))) = true) by (apply (shape_form _ (nocap_all w Nc)); exact F).
    destruct (shape_runs w Q) as (st & Et). pose proof (proj1 (gismu_tokens w st Et) Q) as Ex.
    destruct (followed w st Et) as (x & gs & I & _).
    assert (Up : ups (letters 0 w) = false) by (rewrite ups_capital; exact Nc).
    assert (exists p, rev (if snd (category (exit_of (ts_m st))) then tl (ts_starts st) else ts_starts st) = [p] /\ fst (category (exit_of (ts_m st))) = W_GISMU) as (p & Sp & C).
    { assert (C0 : category "R_GISMU_0" = (W_GISMU, false)) by reflexivity. assert (C1 : category "R_GISMU_1" = (W_GISMU, true)) by reflexivity.
      destruct Ex as [[X L]|[X L]]; rewrite X, ?C0, ?C1; cbn [fst snd];
        destruct (ts_starts st) as [|a [|b [|? ?]]]; try discriminate; eexists; split; reflexivity. }
    destruct (category (exit_of (ts_m st))) as [c d] eqn:Ec. cbn [fst snd] in *. subst c.
    destruct (end_ok cult w (conc (fend f_init (letters 0 w)) false st) W_GISMU d [p]) as (r & R1 & R2 & R3).
    + cbn [m_state conc]. rewrite (exit_ok _ (i_ms _ _ _ _ I)). exact Ec.
    + reflexivity.
    + left. split; [reflexivity|exact Sp].
    + exists r, p. rewrite (scan_of cult w st Et Up). auto.
Qed.
