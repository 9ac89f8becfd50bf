(* The letters around the hyphen of a stage-3 borrowing. *)
From Coq Require Import String Ascii List NArith Bool Arith Lia.
From Verif Require Import Base Arr DfaModel DfaTables MorfModel LujvoSpec MorfSpec MorfProofs MorfProofs2 MorfProofs3 MorfProofs4 MorfProofs5 MorfProofs6 MorfProofs7 HyphProofs.
Import ListNotations.
Open Scope N_scope.
Open Scope list_scope.

(* ---- entries of the front-end table ---- *)
Definition hy_ok (L Sv G : N) : bool :=
  let a := fe_char Sv in let b := fe_char G in
  if N.eqb L 0 then false else
  if cons b then Ascii.eqb a (borrow_hyphen (if N.eqb L 2 then "r" else if N.eqb L 1 then "n" else "b")%char b) else false.
Definition entry2_ok (L Sv G : N) : bool :=
  let t := fe_tok (inact L Sv G) in
  if among_n T_H t then hy_ok L Sv G
  else if among_n T_ini t then (if initial_pair (fe_char Sv) (fe_char G) then permissible (fe_char Sv) (fe_char G) else false)
  else if among_n T_med t then permissible (fe_char Sv) (fe_char G)
  else true.
Lemma entries2_checked : forallb (fun L => forallb (fun Sv => forallb (fun G => entry2_ok L Sv G) (upto 32)) (upto 32)) (upto 4) = true.
Proof. vm_compute. reflexivity. Qed.
Lemma entry2_of L Sv G : L < 4 -> Sv < 32 -> G < 32 -> entry2_ok L Sv G = true.
Proof.
  intros H1 H2 H3. pose proof entries2_checked as H.
  pose proof (by_upto _ _ H L H1) as A. cbv beta in A. pose proof (by_upto _ _ A Sv H2) as B. cbv beta in B.
  exact (by_upto _ _ B G H3).
Qed.

(* ---- letters ---- *)
Definition plainc (c : ascii) : Prop := capital c = false /\ c <> ","%char.
Definition code (c : ascii) : N := snd (mapchar c).
Lemma code_cons c : capital c = false -> consg (code c) = true ->
  fe_char (code c) = c /\ cons c = true /\ s2l (code c) = (if Ascii.eqb c "r" then 2 else if Ascii.eqb c "n" then 1 else 3).
Proof.
  intros H1 H2. pose proof (LujvoProofs.by_chars (fun c => if capital c then true else if consg (code c) then
    if Ascii.eqb (fe_char (code c)) c then if cons c then N.eqb (s2l (code c)) (if Ascii.eqb c "r" then 2 else if Ascii.eqb c "n" then 1 else 3)
    else false else false else true) ltac:(vm_compute; reflexivity) c) as H. cbv beta in H. rewrite H1, H2 in H.
  destruct (Ascii.eqb_spec (fe_char (code c)) c); [|discriminate]. destruct (cons c); [|discriminate]. apply N.eqb_eq in H. auto.
Qed.
Lemma code_vow c : capital c = false -> cls "aeiou" (fe_char (code c)) = true -> vow c = true.
Proof.
  intros H1 H2. pose proof (LujvoProofs.by_chars (fun c => if capital c then true else if cls "aeiou" (fe_char (code c)) then vow c else true)
    ltac:(vm_compute; reflexivity) c) as H. cbv beta in H. rewrite H1, H2 in H. exact H.
Qed.
Lemma among_T d t : among_n d t = true -> In t d.
Proof. unfold among_n. intro H. apply existsb_exists in H. destruct H as (y & I & E). apply N.eqb_eq in E. now subst. Qed.

(* the entry read for a letter *)
Lemma ftok_vowel f c : finv f -> plainc c -> ftok f c = 1 -> vow c = true /\ f_S (fgo f c) = 0 /\ f_L (fgo f c) = 0.
Proof.
  intros Hf (Hc & Hn) E. pose proof (flook_ok f c Hf Hn) as K. unfold ftok, fgo in *. destruct (flook f c) as [t e] eqn:Q. cbn [fst snd] in *. subst t.
  destruct K as (_ & _ & K). destruct (K ltac:(discriminate)) as (A & _). rewrite A. change (tact 1) with AC_CLR.
  split; [|unfold fnext; destruct (f_v f) as [[v1 v2] v3]; split; reflexivity].
  destruct Hf as [HS Hv]. destruct f as [L Sv [[v1 v2] v3]]. unfold flook, letter_token in Q. cbn [f_v f_L f_S] in *.
  pose proof (char_of c) as Cc. unfold chars_ok in Cc. fold (code c) in Cc, Q.
  destruct (code c <? 32) eqn:G32; [|discriminate]. apply N.ltb_lt in G32.
  destruct (vmapchar c <? 8) eqn:v8; [|discriminate]. apply N.ltb_lt in v8.
  destruct (Ascii.eqb_spec c ","); [contradiction|]. destruct (N.eqb_spec (vmapchar c) 0) as [|Nz]; [discriminate|].
  assert (BL : L < 4) by (destruct HS as [[-> ->]|(_ & _ & ?)]; lia).
  assert (BS : Sv < 32) by (destruct HS as [[-> ->]|(_ & ? & _)]; lia).
  pose proof (entry_of L Sv (code c) BL BS G32) as En. unfold entry_ok in En.
  pose proof (vc_of v2 v3 (vmapchar c) ltac:(lia) ltac:(lia) v8) as V. unfold vc_ok in V.
  injection Q as Q _. set (t := fe_tok (inact L Sv (code c))) in *.
  assert (N0 : (N.eqb v2 0 && N.eqb v3 0) = false) by (destruct (N.eqb_spec v2 0); [lia|reflexivity]). rewrite N0 in Q.
  destruct (t <? 16); [|discriminate]. destruct (act_eqb _ _); [|discriminate]. destruct (Bool.eqb _ _); [|discriminate].
  destruct (Bool.eqb _ _); [|discriminate].
  destruct (N.eqb_spec t 1) as [T1|T1]; [apply code_vow; assumption|].
  destruct (N.eqb_spec t 3) as [T3|T3]; [|cbn [orb] in Q; congruence].
  exfalso. cbn [orb] in Q. apply N.eqb_eq in En. rewrite En in Cc. cbn in Cc. apply N.eqb_eq in Cc. rewrite Cc in V, Q. rewrite Q in V. discriminate V.
Qed.
Lemma ftok_cons f c : finv f -> plainc c -> In (ftok f c) T_C ->
  fe_char (code c) = c /\ cons c = true /\ f_S (fgo f c) = code c /\ f_L (fgo f c) = s2l (f_S f) /\
  fe_tok (inact (f_L f) (f_S f) (code c)) = ftok f c /\ code c < 32 /\ f_L f < 4 /\ f_S f < 32 /\ finv (fgo f c).
Proof.
  intros Hf (Hc & Hn) I. pose proof (flook_ok f c Hf Hn) as K. unfold ftok, fgo in *. destruct (flook f c) as [t e] eqn:Q. cbn [fst snd] in *.
  destruct K as (_ & FI & K). assert (Nt : t <> 0) by (intros ->; cbn in I; intuition discriminate).
  destruct (K Nt) as (A & _ & _ & K4 & K5 & _).
  assert (CG : consg (code c) = true).
  { cbn [T_C In] in I. repeat (destruct I as [<-|I]; [first [exact (proj2 (K4 eq_refl))|exact (proj2 (K5 eq_refl))]|]). destruct I. }
  assert (TA : tact t = AC_SFT) by (cbn [T_C In] in I; repeat (destruct I as [<-|I]; [reflexivity|]); destruct I).
  destruct (code_cons c Hc CG) as (E1 & E2 & _). rewrite A, TA in *.
  destruct Hf as [HS Hv]. destruct f as [L Sv [[v1 v2] v3]]. unfold flook, letter_token in Q. cbn [f_v f_L f_S] in *.
  pose proof (char_of c) as Cc. unfold chars_ok in Cc. fold (code c) in Cc, Q.
  destruct (code c <? 32) eqn:G32; [|discriminate]. apply N.ltb_lt in G32.
  destruct (vmapchar c <? 8) eqn:v8; [|discriminate]. apply N.ltb_lt in v8.
  assert (BL : L < 4) by (destruct HS as [[-> ->]|(_ & _ & ?)]; lia).
  assert (BS : Sv < 32) by (destruct HS as [[-> ->]|(_ & ? & _)]; lia).
  split; [exact E1|]. split; [exact E2|]. split; [reflexivity|]. split; [reflexivity|]. split; [|auto].
  injection Q as Q _. set (u := fe_tok (inact L Sv (code c))) in *.
  assert (N0 : (N.eqb v2 0 && N.eqb v3 0) = false) by (destruct (N.eqb_spec v2 0); [lia|reflexivity]). rewrite N0 in Q.
  destruct (N.eqb u 1 || N.eqb u 3) eqn:U; [|exact Q]. exfalso.
  assert (vmapchar c = 1) as V1 by (apply by_chars_cons; exact CG).
  rewrite V1 in Q. pose proof (entry_of L Sv (code c) BL BS G32) as En. unfold entry_ok in En. fold u in En.
  destruct (u <? 16); [|discriminate]. destruct (act_eqb _ _); [|discriminate]. destruct (Bool.eqb _ _); [|discriminate].
  destruct (Bool.eqb _ _); [|discriminate].
  destruct (N.eqb_spec u 1) as [T1|T1].
  - rewrite En in Cc. destruct (Ascii.eqb_spec c ","); [contradiction|]. rewrite V1 in Cc. discriminate Cc.
  - cbn [orb] in U. rewrite U in En. apply N.eqb_eq in En. rewrite En in CG. discriminate CG.
Qed.

(* ---- windows ---- *)
Lemma ptoks_split L : forall f a b, ptoks f L = a ++ b -> exists La Lb, L = La ++ Lb /\ ptoks f La = a /\ ptoks (fend f La) Lb = b.
Proof.
  induction L as [|[p c] L IH]; intros f a b E; cbn [ptoks] in E.
  - destruct a; [|discriminate]. cbn in E. exists [], []. subst b. auto.
  - destruct a as [|x a]; cbn [app] in E.
    + exists [], ((p, c) :: L). cbn [ptoks fend app]. auto.
    + injection E as <- E. destruct (IH _ _ _ E) as (La & Lb & -> & <- & <-). exists ((p, c) :: La), Lb. auto.
Qed.
Lemma finv_end L : forall f, finv f -> Forall (fun x => snd x <> ","%char) L -> finv (fend f L).
Proof.
  induction L as [|[p c] L IH]; intros f H F; [exact H|]. inversion F as [|? ? C F']; subst. cbn [snd fend] in *. apply IH; [|exact F'].
  pose proof (flook_ok f c H C) as K. destruct (flook f c). apply K.
Qed.
Lemma fits_end w : forall l, fits w (map snd (rev l)) -> exists (a : list (nat * N)) b, l = a ++ b /\ length b = length w /\ fits w (map snd (rev b)).
Proof.
  induction w as [|d w IH]; intros l H; [exists l, []; rewrite app_nil_r; auto|].
  destruct l as [|z l] using rev_ind; [destruct H|]. clear IHl. rewrite rev_app_distr in H. cbn [rev app map fits] in H.
  destruct H as (A & H). destruct (IH _ H) as (a & b & -> & Lb & Fb). exists a, (b ++ [z]). rewrite app_assoc. split; [reflexivity|].
  split; [rewrite app_length; cbn; lia|]. rewrite rev_app_distr. cbn [rev app map fits]. auto.
Qed.
Lemma placed w a q c r : Forall (fun c => Ascii.eqb c "," = false) w -> letters 0 w = a ++ (q, c) :: r ->
  w = map snd a ++ c :: map snd r /\ q = length a.
Proof.
  intros H E. pose proof (letters_snd w 0) as S. pose proof (letters_fst w 0) as P. rewrite (places_plain w 0 H) in P. rewrite E in S, P.
  rewrite map_app in S, P. cbn [map fst snd] in S, P.
  assert (letters_of w = w) as LW.
  { clear - H. induction H as [|x l Hx H IH]; [reflexivity|]. cbn [letters_of filter]. unfold comma. rewrite Hx. cbn [negb]. f_equal. exact IH. }
  split; [congruence|]. assert (nth_error (seq 0 (length w)) (length a) = Some q) as Q.
  { rewrite <- P, nth_error_app2; rewrite map_length; [|lia]. now rewrite Nat.sub_diag. }
  assert (length a < length w)%nat.
  { rewrite <- LW, <- S, app_length, map_length. cbn. lia. }
  rewrite (nth_error_nth' _ 0%nat) in Q by (rewrite seq_length; lia). rewrite seq_nth in Q by lia. now injection Q.
Qed.

Ltac fits_one H t := let A := fresh "A" in destruct H as [A H]; apply among_T in A.

(* the letter before the hyphen, the hyphen, and the letter after *)
Lemma hyphen_letters f c1 c2 c3 : finv f -> plainc c1 -> plainc c2 -> plainc c3 ->
  In (ftok f c1) T_C -> In (ftok (fgo f c1) c2) T_C -> In (ftok (fgo (fgo f c1) c2) c3) T_H ->
  c2 = borrow_hyphen c1 c3 /\ cons c3 = true.
Proof.
  intros Hf P1 P2 P3 I1 I2 I3. destruct (ftok_cons _ _ Hf P1 I1) as (_ & _ & S1 & L1 & _ & B1 & _ & _ & F1).
  destruct (ftok_cons _ _ F1 P2 I2) as (E2 & _ & S2 & L2 & _ & B2 & _ & _ & F2).
  assert (I3' : In (ftok (fgo (fgo f c1) c2) c3) T_C) by (cbn [T_H T_C In] in *; intuition).
  destruct (ftok_cons _ _ F2 P3 I3') as (E3 & C3 & _ & _ & TK & B3 & BL & BS & _). split; [|exact C3].
  assert (C1 : consg (code c1) = true).
  { destruct F1 as [[(Q & _)|(Q & _)] _]; rewrite S1 in Q; [|exact Q].
    destruct (ftok_cons _ _ Hf P1 I1) as (Z & Z2 & _). rewrite Q in Z. subst c1. discriminate Z2. }
  destruct (code_cons c1 (proj1 P1) C1) as (_ & _ & SL).
  rewrite L2, S1 in BL, TK. rewrite S2 in TK. rewrite S2 in BS.
  pose proof (entry2_of _ _ _ BL BS B3) as K. unfold entry2_ok in K. rewrite TK in K.
  assert (among_n T_H (ftok (fgo (fgo f c1) c2) c3) = true) as AT.
  { cbn [T_H In] in I3. destruct I3 as [<-|[<-|[]]]; reflexivity. }
  rewrite AT in K. unfold hy_ok in K. rewrite E2, E3, SL, C3 in K.
  destruct (N.eqb _ 0); [discriminate|]. apply Ascii.eqb_eq in K. rewrite K at 1. unfold borrow_hyphen.
  destruct (Ascii.eqb_spec c1 "r") as [->|Nr]; [reflexivity|]. destruct (Ascii.eqb_spec c1 "n") as [->|Nn]; [reflexivity|].
  cbn [N.eqb Pos.eqb orb]. reflexivity.
Qed.
Lemma cluster f c1 c2 : finv f -> plainc c1 -> plainc c2 -> In (ftok f c1) T_C ->
  (In (ftok (fgo f c1) c2) T_ini -> initial_pair c1 c2 = true) /\ (In (ftok (fgo f c1) c2) T_med -> permissible c1 c2 = true).
Proof.
  intros Hf P1 P2 I1. destruct (ftok_cons _ _ Hf P1 I1) as (E1 & _ & S1 & L1 & _ & B1 & _ & _ & F1).
  split; intro I2; (assert (I2' : In (ftok (fgo f c1) c2) T_C) by (cbn [T_ini T_med T_C In] in *; intuition));
    destruct (ftok_cons _ _ F1 P2 I2') as (E2 & _ & _ & _ & TK & B2 & BL & BS & _);
    pose proof (entry2_of _ _ _ BL BS B2) as K; unfold entry2_ok in K; rewrite TK in K; rewrite S1, E1, E2 in K; clear - I2 K;
    cbn [T_ini T_med In] in I2.
  - destruct I2 as [I2|[I2|[]]]; rewrite <- I2 in K; cbn -[initial_pair permissible] in K; destruct (initial_pair c1 c2); congruence.
  - destruct I2 as [I2|[I2|[I2|[I2|[I2|[]]]]]]; rewrite <- I2 in K; cbn -[initial_pair permissible] in K; try exact K;
      destruct (initial_pair c1 c2); congruence.
Qed.

(* ---- from a window of tokens to the letters ---- *)
Lemma window_letters w la lb sh : Forall (fun c => Ascii.eqb c "," = false /\ capital c = false) w ->
  toks_of w = la ++ lb -> fits sh (map snd (rev la)) ->
  exists a b r f, letters 0 w = a ++ b ++ r /\ length b = length sh /\ finv f /\ Forall (fun x => plainc (snd x)) b /\
    map fst la = map fst (a ++ b) /\ fits sh (map snd (rev (ptoks f b))).
Proof.
  intros P E F. assert (NC : Forall (fun x => plainc (snd x)) (letters 0 w)).
  { pose proof (letters_snd w 0) as S. apply Forall_map. rewrite S. unfold letters_of.
    apply Forall_forall. intros c I. apply filter_In in I. destruct I as [I C]. rewrite Forall_forall in P. split; [apply (P c I)|].
    intros ->. discriminate C. }
  unfold toks_of in E. destruct (ptoks_split _ _ _ _ E) as (La & Lb & EL & EA & EB).
  destruct (fits_end _ _ F) as (ta & tb & E2 & LN & F2). rewrite <- EA in E2.
  destruct (ptoks_split _ _ _ _ E2) as (a & b & EAB & PA & PB). subst La. exists a, b, Lb, (fend f_init a).
  assert (FB : forall l f, map fst (ptoks f l) = map fst l) by (intro l; induction l as [|[p c] l IH]; intro f; cbn; [reflexivity|now rewrite IH]).
  assert (NL : forall l f, length (ptoks f l) = length l) by (intro l; induction l as [|[p c] l IH]; intro f; cbn; [reflexivity|now rewrite IH]).
  rewrite EL in NC. rewrite !Forall_app in NC. destruct NC as ((NA & NB) & NR).
  split; [rewrite EL, app_assoc; reflexivity|]. split; [rewrite <- LN, <- PB; now rewrite NL|]. split.
  - apply finv_end; [exact finv_init|]. eapply Forall_impl; [|exact NA]. intros x Hx. apply Hx.
  - split; [exact NB|]. split; [rewrite <- EA; apply FB|]. rewrite PB. exact F2.
Qed.
Lemma plain_chars w : plain w = w -> Forall (fun c => Ascii.eqb c "," = false /\ capital c = false) w.
Proof.
  intro H. pose proof (plain_no_comma w) as A. rewrite H in A.
  assert (Forall (fun c => capital c = false) w) as C.
  { rewrite <- H. unfold plain. apply Forall_map. apply Forall_forall. intros c _. apply lower_same. }
  rewrite Forall_forall in *. auto.
Qed.
Lemma nth_rev_app {A} (a b : list A) n : (n < length b)%nat -> nth_error (rev (a ++ b)) n = nth_error (rev b) n.
Proof. intro H. rewrite rev_app_distr. apply nth_error_app1. now rewrite rev_length. Qed.

Lemma form_of_cvcc f c1 c2 c3 c4 : finv f -> plainc c1 -> plainc c2 -> plainc c3 -> plainc c4 ->
  In (ftok f c1) T_C -> In (ftok (fgo f c1) c2) T_v -> In (ftok (fgo (fgo f c1) c2) c3) T_1 -> In (ftok (fgo (fgo (fgo f c1) c2) c3) c4) T_med ->
  form CVCC [c1; c2; c3; c4] /\ finv (fgo (fgo (fgo f c1) c2) c3).
Proof.
  intros Hf P1 P2 P3 P4 I1 I2 I3 I4. destruct (ftok_cons _ _ Hf P1 I1) as (_ & C1 & _ & _ & _ & _ & _ & _ & F1).
  cbn [T_v In] in I2. destruct I2 as [I2|[]]. symmetry in I2. destruct (ftok_vowel _ _ F1 P2 I2) as (V2 & _).
  assert (F2 : finv (fgo (fgo f c1) c2)) by (pose proof (flook_ok _ c2 F1 (proj2 P2)) as K; destruct (flook _ c2); apply K).
  assert (I3' : In (ftok (fgo (fgo f c1) c2) c3) T_C) by (cbn [T_1 T_C In] in *; intuition).
  destruct (ftok_cons _ _ F2 P3 I3') as (_ & C3 & _ & _ & _ & _ & _ & _ & F3). split; [|exact F3].
  apply f_cvcc; [exact C1|exact V2|]. exact (proj2 (cluster _ _ _ F2 P3 P4 I3') I4).
Qed.
Lemma form_of_ccvc f c1 c2 c3 c4 : finv f -> plainc c1 -> plainc c2 -> plainc c3 -> plainc c4 ->
  In (ftok f c1) T_C -> In (ftok (fgo f c1) c2) T_ini -> In (ftok (fgo (fgo f c1) c2) c3) T_v -> In (ftok (fgo (fgo (fgo f c1) c2) c3) c4) T_1 ->
  form CCVC [c1; c2; c3; c4] /\ finv (fgo (fgo (fgo f c1) c2) c3).
Proof.
  intros Hf P1 P2 P3 P4 I1 I2 I3 I4. destruct (ftok_cons _ _ Hf P1 I1) as (_ & C1 & _ & _ & _ & _ & _ & _ & F1).
  assert (I2' : In (ftok (fgo f c1) c2) T_C) by (cbn [T_ini T_C In] in *; intuition).
  destruct (ftok_cons _ _ F1 P2 I2') as (_ & C2 & _ & _ & _ & _ & _ & _ & F2).
  cbn [T_v In] in I3. destruct I3 as [I3|[]]. symmetry in I3. destruct (ftok_vowel _ _ F2 P3 I3) as (V3 & _).
  assert (F3 : finv (fgo (fgo (fgo f c1) c2) c3)) by (pose proof (flook_ok _ c3 F2 (proj2 P3)) as K; destruct (flook _ c3); apply K).
  assert (I4' : In (ftok (fgo (fgo (fgo f c1) c2) c3) c4) T_C) by (cbn [T_1 T_C In] in *; intuition).
  destruct (ftok_cons _ _ F3 P4 I4') as (_ & C4 & _). split; [|exact F3].
  apply f_ccvc; [|exact V3|exact C4]. exact (proj1 (cluster _ _ _ Hf P1 P2 I1) I2).
Qed.
Lemma form_of_cvc f c1 c2 c3 : finv f -> plainc c1 -> plainc c2 -> plainc c3 ->
  In (ftok f c1) T_C -> In (ftok (fgo f c1) c2) T_v -> In (ftok (fgo (fgo f c1) c2) c3) T_1 ->
  form CVC [c1; c2; c3] /\ finv (fgo (fgo f c1) c2).
Proof.
  intros Hf P1 P2 P3 I1 I2 I3. destruct (ftok_cons _ _ Hf P1 I1) as (_ & C1 & _ & _ & _ & _ & _ & _ & F1).
  cbn [T_v In] in I2. destruct I2 as [I2|[]]. symmetry in I2. destruct (ftok_vowel _ _ F1 P2 I2) as (V2 & _).
  assert (F2 : finv (fgo (fgo f c1) c2)) by (pose proof (flook_ok _ c2 F1 (proj2 P2)) as K; destruct (flook _ c2); apply K).
  assert (I3' : In (ftok (fgo (fgo f c1) c2) c3) T_C) by (cbn [T_1 T_C In] in *; intuition).
  destruct (ftok_cons _ _ F2 P3 I3') as (_ & C3 & _). split; [|exact F2]. apply f_cvc; assumption.
Qed.

Ltac peel H := let A := fresh "I" in destruct H as [A H]; apply among_T in A.
Lemma letters4 w la lb s : plain w = w -> toks_of w = la ++ lb -> trun t_init la = Some s -> Forall (fun x => snd x < 21) la -> at4 (ts_m s) = true ->
  exists a h, hyphened [CVCC; CCVC] w a h /\ nth_error (rev (map fst la)) 1 = Some h /\ nth_error (rev (map fst la)) 5 = Some a.
Proof.
  intros P E R F A. apply plain_chars in P.
  assert (NC : Forall (fun c => Ascii.eqb c "," = false) w) by (eapply Forall_impl; [|exact P]; intros c C; apply C).
  assert (B : ts_m s < n_states) by (eapply trun_bound; [exact R|exact zero_state|exact F]).
  pose proof (by_upto _ _ shapes4 _ B) as O. cbv beta in O. rewrite A in O.
  destruct (only_ok _ _ _ _ _ O R eq_refl F) as (sh & I & W).
  destruct (window_letters w la lb sh P E W) as (a & b & r & f & EL & LN & Hf & PB & EF & FT).
  assert (L6 : length b = 6%nat) by (rewrite LN; destruct I as [<-|[<-|[]]]; reflexivity). clear LN.
  destruct b as [|[p1 c1] [|[p2 c2] [|[p3 c3] [|[p4 c4] [|[p5 c5] [|[p6 c6] [|]]]]]]]; try discriminate L6.
  rewrite EF, map_app, !nth_rev_app by (cbn; lia). cbn [map fst rev app nth_error].
  destruct (placed w a _ _ _ NC EL) as (EW & EQ).
  assert (Q : p5 = (length a + 4)%nat).
  { change (letters 0 w = a ++ ([(p1, c1); (p2, c2); (p3, c3); (p4, c4)] ++ (p5, c5) :: (p6, c6) :: r)) in EL. rewrite app_assoc in EL.
    destruct (placed w _ _ _ _ NC EL) as (_ & Q). rewrite Q, app_length. reflexivity. }
  subst p5.
  do 6 (let X := fresh "P" in apply Forall_cons_iff in PB; destruct PB as [X PB]; cbn [snd] in X).
  cbn [ptoks rev app map snd] in FT.
  exists (length a), (length a + 4)%nat. split; [|split; [reflexivity|congruence]].
  assert (HY : forall k, In k [CVCC; CCVC] -> form k [c1; c2; c3; c4] -> finv (fgo (fgo (fgo f c1) c2) c3) ->
    In (ftok (fgo (fgo (fgo f c1) c2) c3) c4) T_C -> In (ftok (fgo (fgo (fgo (fgo f c1) c2) c3) c4) c5) T_C ->
    In (ftok (fgo (fgo (fgo (fgo (fgo f c1) c2) c3) c4) c5) c6) T_H -> hyphened [CVCC; CCVC] w (length a) (length a + 4)).
  { intros k IK FK FF J4 J5 J6. destruct (hyphen_letters _ c4 c5 c6 FF ltac:(assumption) ltac:(assumption) ltac:(assumption) J4 J5 J6) as (HH & C6).
    exists (map snd a), [c1; c2; c3; c4], k, c4, c6, (map snd r). split.
    - rewrite <- HH. rewrite EW at 1. reflexivity.
    - split; [exact IK|]. split; [exact FK|]. split; [exists [c1; c2; c3]; reflexivity|]. split; [exact C6|].
      rewrite app_length, map_length. auto. }
  cbn [In] in I. destruct I as [<-|[<-|[]]]; cbn [sh_cvcc sh_ccvc fits] in FT; do 6 peel FT.
  - destruct (form_of_cvcc f c1 c2 c3 c4) as (FO & FF); try assumption. apply (HY CVCC); auto; [left; reflexivity|cbn [T_med T_C In] in *; intuition|cbn [T_hy T_C In] in *; intuition].
  - destruct (form_of_ccvc f c1 c2 c3 c4) as (FO & FF); try assumption. apply (HY CCVC); auto; [right; left; reflexivity|cbn [T_1 T_C In] in *; intuition|cbn [T_hy T_C In] in *; intuition].
Qed.
Lemma letters3 w la lb s : plain w = w -> toks_of w = la ++ lb -> trun t_init la = Some s -> Forall (fun x => snd x < 21) la -> at3 (ts_m s) = true ->
  exists a h, hyphened [CVC] w a h /\ nth_error (rev (map fst la)) 1 = Some h /\ nth_error (rev (map fst la)) 4 = Some a.
Proof.
  intros P E R F A. apply plain_chars in P.
  assert (NC : Forall (fun c => Ascii.eqb c "," = false) w) by (eapply Forall_impl; [|exact P]; intros c C; apply C).
  assert (B : ts_m s < n_states) by (eapply trun_bound; [exact R|exact zero_state|exact F]).
  pose proof (by_upto _ _ shapes3 _ B) as O. cbv beta in O. rewrite A in O.
  destruct (only_ok _ _ _ _ _ O R eq_refl F) as (sh & I & W).
  destruct (window_letters w la lb sh P E W) as (a & b & r & f & EL & LN & Hf & PB & EF & FT).
  assert (L6 : length b = 5%nat) by (rewrite LN; destruct I as [<-|[]]; reflexivity). clear LN.
  destruct b as [|[p1 c1] [|[p2 c2] [|[p3 c3] [|[p5 c5] [|[p6 c6] [|]]]]]]; try discriminate L6.
  rewrite EF, map_app, !nth_rev_app by (cbn; lia). cbn [map fst rev app nth_error].
  destruct (placed w a _ _ _ NC EL) as (EW & EQ).
  assert (Q : p5 = (length a + 3)%nat).
  { change (letters 0 w = a ++ ([(p1, c1); (p2, c2); (p3, c3)] ++ (p5, c5) :: (p6, c6) :: r)) in EL. rewrite app_assoc in EL.
    destruct (placed w _ _ _ _ NC EL) as (_ & Q). rewrite Q, app_length. reflexivity. }
  subst p5.
  do 5 (let X := fresh "P" in apply Forall_cons_iff in PB; destruct PB as [X PB]; cbn [snd] in X).
  cbn [ptoks rev app map snd] in FT.
  exists (length a), (length a + 3)%nat. split; [|split; [reflexivity|congruence]].
  cbn [In] in I. destruct I as [<-|[]]; cbn [sh_cvc fits] in FT; do 5 peel FT.
  destruct (form_of_cvc f c1 c2 c3) as (FO & FF); try assumption.
  destruct (hyphen_letters (fgo (fgo f c1) c2) c3 c5 c6) as (HH & C6); try assumption; [cbn [T_1 T_C In] in *; intuition|cbn [T_hy T_C In] in *; intuition|].
  exists (map snd a), [c1; c2; c3], CVC, c3, c6, (map snd r). split.
  - rewrite <- HH. rewrite EW at 1. reflexivity.
  - split; [left; reflexivity|]. split; [exact FO|]. split; [exists [c1; c2]; reflexivity|]. split; [exact C6|].
    rewrite app_length, map_length. auto.
Qed.

Lemma hd_last {A} (l : list A) x : hd_error l = Some x -> exists r, rev l = r ++ [x].
Proof. destruct l as [|y l]; [discriminate|]. cbn. intro H. injection H as ->. eauto. Qed.
Lemma hyphen_place cult w r : plain w = w -> morf_scan cult w = Ok r ->
  match sc_type r with
  | MT_FUIVLA3 => exists a h l, hyphened [CVCC; CCVC] w a h /\ sc_hyph r = Some h /\ sc_starts r = l ++ [a]
  | MT_FUIVLA3_CVC => exists a h l, hyphened [CVC] w a h /\ sc_hyph r = Some h /\ sc_starts r = l ++ [a]
  | MT_FUIVLA3X => exists a h, hyphened [CVCC; CCVC] w a h /\ sc_hyph r = Some h
  | MT_FUIVLA3X_CVC => exists a h, hyphened [CVC] w a h /\ sc_hyph r = Some h
  | MT_BAD_UPPERCASE => False
  | _ => sc_hyph r = None
  end.
Proof.
  intros P E. rewrite scan_ok in E. destruct (trun t_init (toks_of w)) as [st|] eqn:T; [|injection E as <-; reflexivity].
  pose proof (ptoks_feasible (letters 0 w) f_init finv_init (letters_no_comma w 0)) as FE. fold (toks_of w) in FE. change (held f_init) with false in FE.
  assert (FS : Forall (fun x => snd x < 21) (toks_of w)) by (eapply feasible_small; [exact T|exact zero_state|exact FE]).
  assert (B : ts_m st < n_states) by (eapply trun_bound; [exact T|exact zero_state|exact FS]).
  pose proof (stage3_place _ _ FE T) as K. unfold morf_end in E. cbn [conc m_state m_starts m_upper m_hyph3 m_hyph4 m_cstart] in E.
  rewrite (exit_ok _ B) in E. destruct (category (exit_of (ts_m st))) as [c d]. cbn zeta in K.
  assert (UP : ups (letters 0 w) = false).
  { unfold ups. apply not_true_is_false. intro X. apply existsb_exists in X. destruct X as (z & I & X).
    assert (I2 : In (snd z) (letters_of w)) by (rewrite <- (letters_snd w 0); now apply in_map).
    unfold letters_of in I2. apply filter_In in I2. destruct I2 as [I2 _]. pose proof (plain_chars _ P) as Q. rewrite Forall_forall in Q.
    destruct (lower_same (snd z)) as (_ & _ & _ & L & _). rewrite L in X. rewrite (proj2 (Q _ I2)) in X. discriminate. }
  rewrite UP in E.
  assert (S4 : In c [W_FUIVLA3; W_FUIVLA3X] -> exists a h, hyphened [CVCC; CCVC] w a h /\ ts_h4 st = Some h /\
     (c = W_FUIVLA3 -> hd_error (if d then tl (ts_starts st) else ts_starts st) = Some a)).
  { intro I. destruct (proj1 K I) as (la & lb & s & EL & R & A & H & S). rewrite EL in FS. apply Forall_app in FS.
    destruct (letters4 w la lb s P EL R (proj1 FS) A) as (a & h & HY & N1 & N5). exists a, h. rewrite H, N1. split; [exact HY|]. split; [reflexivity|].
    intro C. rewrite (S C). exact N5. }
  assert (S3 : In c [W_FUIVLA3_CVC; W_FUIVLA3X_CVC] -> exists a h, hyphened [CVC] w a h /\ ts_h3 st = Some h /\
     (c = W_FUIVLA3_CVC -> hd_error (if d then tl (ts_starts st) else ts_starts st) = Some a)).
  { intro I. destruct (proj2 K I) as (la & lb & s & EL & R & A & H & S). rewrite EL in FS. apply Forall_app in FS.
    destruct (letters3 w la lb s P EL R (proj1 FS) A) as (a & h & HY & N1 & N5). exists a, h. rewrite H, N1. split; [exact HY|]. split; [reflexivity|].
    intro C. rewrite (S C). exact N5. }
  clear K. destruct c; try (injection E as <-; reflexivity).
  - destruct cult; injection E as <-; reflexivity.
  - injection E as <-. cbn [sc_type sc_hyph sc_starts]. destruct (S4 (or_introl eq_refl)) as (a & h & HY & HH & ST).
    destruct (hd_last _ _ (ST eq_refl)) as (l & RL). exists a, h, l. auto.
  - injection E as <-. cbn [sc_type sc_hyph sc_starts]. destruct (S3 (or_introl eq_refl)) as (a & h & HY & HH & ST).
    destruct (hd_last _ _ (ST eq_refl)) as (l & RL). exists a, h, l. auto.
  - injection E as <-. cbn [sc_type sc_hyph sc_starts]. destruct (S4 (or_intror (or_introl eq_refl))) as (a & h & HY & HH & _). eauto.
  - injection E as <-. cbn [sc_type sc_hyph sc_starts]. destruct (S3 (or_intror (or_introl eq_refl))) as (a & h & HY & HH & _). eauto.
  - destruct (is_bad_cmene w); [|discriminate..]. cbn [obind] in E. injection E as <-. reflexivity.
Qed.
Lemma hyphen_written cult w r : morf_scan cult w = Ok r ->
  match sc_type r with
  | MT_FUIVLA3 => exists a h l, hyphened [CVCC; CCVC] (plain w) a h /\ sc_hyph r = Some (at_letter w h) /\ sc_starts r = l ++ [at_letter w a]
  | MT_FUIVLA3_CVC => exists a h l, hyphened [CVC] (plain w) a h /\ sc_hyph r = Some (at_letter w h) /\ sc_starts r = l ++ [at_letter w a]
  | MT_FUIVLA3X => exists a h, hyphened [CVCC; CCVC] (plain w) a h /\ sc_hyph r = Some (at_letter w h)
  | MT_FUIVLA3X_CVC => exists a h, hyphened [CVC] (plain w) a h /\ sc_hyph r = Some (at_letter w h)
  | MT_BAD_UPPERCASE => existsb capital w = true
  | _ => sc_hyph r = None
  end.
Proof.
  intro E. pose proof (plain_answer cult w) as K. destruct (morf_scan cult (plain w)) as [r'| | | |] eqn:E'; try (rewrite K in E; discriminate E).
  destruct K as (r0 & E0 & (T & S & H & _)). rewrite E in E0. injection E0 as <-.
  pose proof (hyphen_place cult (plain w) r' (plain_plain w) E') as Q.
  destruct T as [T|(U & T & _)]; [|rewrite T; exact U]. rewrite T.
  destruct (sc_type r'); try (rewrite H, Q; reflexivity).
  - destruct Q as (a & h & l & HY & HH & ST). exists a, h, (map (at_letter w) l). rewrite H, HH, S, ST, map_app. auto.
  - destruct Q as (a & h & l & HY & HH & ST). exists a, h, (map (at_letter w) l). rewrite H, HH, S, ST, map_app. auto.
  - destruct Q as (a & h & HY & HH). exists a, h. rewrite H, HH. auto.
  - destruct Q as (a & h & HY & HH). exists a, h. rewrite H, HH. auto.
  - destruct Q.
Qed.
