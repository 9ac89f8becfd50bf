(* The scanner as a front end that turns letters into tokens, followed by the automaton. *)
From Coq Require Import String Ascii List NArith Bool Arith Lia.
From Verif Require Import Base Arr DfaModel DfaTables MorfModel LujvoSpec LujvoProofs.
Import ListNotations.
Open Scope N_scope.
Open Scope list_scope.

(* ---- the automaton as a total function ---- *)
Definition n_states : N := 737.
Definition row_of (s : N) : list (option N) :=
  map (fun t => match next_state morf_tables (Some s) t with Ok x => x | _ => None end) (upto 21).
Definition morf_rows := Eval vm_compute in aof (map (fun s => aof (row_of s)) (upto n_states)).
Definition nx (s t : N) : option N :=
  match aget morf_rows s with Some r => match aget r t with Some o => o | None => None end | None => None end.
Definition nxo (o : option N) (t : N) : option N := match o with Some s => nx s t | None => None end.
Definition exits := Eval vm_compute in aof (t_exit morf_tables).
Definition exit_of (s : N) : string := match aget exits s with Some x => x | None => EmptyString end.

Definition opt_ok (a b : option N) : bool :=
  match a, b with Some x, Some y => N.eqb x y | None, None => true | _, _ => false end.
Lemma opt_ok_eq a b : opt_ok a b = true -> a = b.
Proof. destruct a, b; cbn; try discriminate; try reflexivity. intro H. apply N.eqb_eq in H. now subst. Qed.

Lemma upto_from_in i n x : i <= x -> x < i + N.of_nat n -> In x (upto_from i n).
Proof.
  revert i. induction n as [|n IH]; intros i H1 H2; [lia|]. cbn [upto_from].
  destruct (N.eq_dec i x) as [->|H]; [left; reflexivity|right]. apply IH; lia.
Qed.
Lemma upto_in n x : x < n -> In x (upto n).
Proof. intro H. apply upto_from_in; lia. Qed.
Lemma by_upto n (P : N -> bool) : forallb P (upto n) = true -> forall x, x < n -> P x = true.
Proof. intros H x Hx. rewrite forallb_forall in H. apply H, upto_in, Hx. Qed.

Lemma rows_checked : forallb (fun s => forallb (fun t => match next_state morf_tables (Some s) t with
                                      | Ok x => if opt_ok x (nx s t) then
                                          match x with Some y => y <? n_states | None => true end else false
                                      | _ => false end) (upto 21)) (upto n_states) = true.
Proof. vm_compute. reflexivity. Qed.
Global Opaque nx next_state morf_tables.
Lemma row_split (o : outcome (option N)) x n :
  match o with
  | Ok x' => if opt_ok x' x then match x' with Some y => y <? n | None => true end else false
  | _ => false
  end = true -> o = Ok x /\ (forall y, x = Some y -> y < n).
Proof.
  destruct o as [x'| | | |]; try discriminate. destruct (opt_ok x' x) eqn:E; [|discriminate].
  apply opt_ok_eq in E. subst x'. intro H. split; [reflexivity|]. intros y ->. now apply N.ltb_lt.
Qed.
Lemma nx_ok s t : s < n_states -> t < 21 ->
  next_state morf_tables (Some s) t = Ok (nx s t) /\ (forall y, nx s t = Some y -> y < n_states).
Proof.
  intros Hs Ht. apply row_split. pose proof rows_checked as H.
  exact (by_upto _ _ (by_upto _ _ H s Hs) t Ht).
Qed.

Global Transparent morf_tables.
Lemma exits_checked : forallb (fun s => if String.eqb (exit_of s) (morf_exitval s) then true else false) (upto n_states) = true.
Proof. vm_compute. reflexivity. Qed.
Lemma exit_ok s : s < n_states -> morf_exitval s = exit_of s.
Proof.
  intro Hs. pose proof exits_checked as H. pose proof (by_upto _ _ H s Hs) as H1. cbv beta in H1.
  destruct (String.eqb_spec (exit_of s) (morf_exitval s)); [now symmetry|discriminate].
Qed.
Lemma zero_state : 0 < n_states.
Proof. vm_compute. reflexivity. Qed.
(* conversions never unfold the tables *)
Global Opaque exit_of n_states morf_tables.

(* ---- the front end ---- *)
Record front : Set := Front { f_L : N; f_S : N; f_v : N * N * N }.
Definition f_init : front := Front 0 0 (1, 1, 1).
Definition fnext (f : front) (c : ascii) (a : act) : front :=
  let '(_, v2, v3) := f_v f in
  let vsm := (v2, v3, vmapchar c) in
  match a with
  | AC_CLR => Front 0 0 vsm
  | AC_SFT => Front (s2l (f_S f)) (snd (mapchar c)) vsm
  | AC_FRZ => Front (f_L f) (f_S f) vsm
  end.
Definition flook (f : front) (c : ascii) : N * fe :=
  let '(_, v2, v3) := f_v f in letter_token (f_L f) (f_S f) (v2, v3, vmapchar c) c.
Definition ftok (f : front) (c : ascii) : N := fst (flook f c).
Definition fgo (f : front) (c : ascii) : front := fnext f c (fe_act (snd (flook f c))).
Fixpoint tokens (f : front) (l : list ascii) : list N :=
  match l with [] => [] | c :: l => ftok f c :: tokens (fgo f c) l end.

(* tokens by themselves tell the action *)
Definition among_n (l : list N) (t : N) : bool := existsb (N.eqb t) l.
Definition tact (t : N) : act :=
  if among_n [3; 19; 20] t then AC_FRZ else if (4 <=? t) && (t <=? 15) then AC_SFT else AC_CLR.
Definition tset (t : N) : bool := (4 <=? t) && (t <=? 6).
Definition tinh (t : N) : bool := (7 <=? t) && (t <=? 15).

Definition consg (g : N) : bool := cls fe_consonants (fe_char g).
Definition act_eqb (a b : act) : bool :=
  match a, b with AC_CLR, AC_CLR | AC_SFT, AC_SFT | AC_FRZ, AC_FRZ => true | _, _ => false end.
Lemma act_eqb_eq a b : act_eqb a b = true -> a = b.
Proof. now destruct a, b. Qed.

Definition entry_ok (L Sv G : N) : bool :=
  let e := inact L Sv G in
  let t := fe_tok e in
  if t <? 16 then
  if act_eqb (fe_act e) (tact t) then
  if Bool.eqb (fe_set e) (tset t) then
  if Bool.eqb (fe_inh e) (tinh t) then
  if N.eqb t 1 then cls "aeiou" (fe_char G)
  else if N.eqb t 3 then N.eqb G 25
  else if N.eqb t 2 then N.eqb G 30
  else if tset t then (if consg G then N.eqb L 0 && (N.eqb Sv 0 || negb (consg Sv)) else false)
  else if tinh t then (if consg G then (if consg Sv then true else false) else false)
  else true
  else false else false else false else false.
Lemma entries_checked : forallb (fun L => forallb (fun Sv => forallb (fun G => entry_ok L Sv G) (upto 32)) (upto 32)) (upto 4) = true.
Proof. vm_compute. reflexivity. Qed.
Lemma entry_of L Sv G : L < 4 -> Sv < 32 -> G < 32 -> entry_ok L Sv G = true.
Proof.
  intros H1 H2 H3. pose proof entries_checked as H.
  pose proof (by_upto _ _ H L H1) as A. cbv beta in A. pose proof (by_upto _ _ A Sv H2) as B. cbv beta in B.
  exact (by_upto _ _ B G H3).
Qed.

Definition vc_ok (i j k : N) : bool :=
  let t := vcheck i j k in
  if 3 <=? k then among_n [0; 1; 16; 17; 18] t else if N.eqb k 2 then among_n [0; 3; 19; 20] t else true.
Lemma vc_checked : forallb (fun i => forallb (fun j => forallb (fun k => vc_ok i j k) (upto 8)) (upto 8)) (upto 8) = true.
Proof. vm_compute. reflexivity. Qed.
Lemma vc_of i j k : i < 8 -> j < 8 -> k < 8 -> vc_ok i j k = true.
Proof.
  intros H1 H2 H3. pose proof vc_checked as H.
  pose proof (by_upto _ _ H i H1) as A. cbv beta in A. pose proof (by_upto _ _ A j H2) as B. cbv beta in B.
  exact (by_upto _ _ B k H3).
Qed.

(* letters *)
Definition chars_ok (c : ascii) : bool :=
  let G := snd (mapchar c) in
  let v := vmapchar c in
  if G <? 32 then if v <? 8 then
  if Ascii.eqb c "," then true else
  if N.eqb v 0 then false else
  if cls "aeiou" (fe_char G) then 3 <=? v else if N.eqb G 25 then N.eqb v 2 else
  if N.eqb v 1 then true else false
  else false else false.
Lemma char_of c : chars_ok c = true.
Proof. exact (by_chars chars_ok ltac:(vm_compute; reflexivity) c). Qed.

(* front end states that occur *)
Definition finv (f : front) : Prop :=
  ((f_S f = 0 /\ f_L f = 0) \/ (consg (f_S f) = true /\ f_S f < 32 /\ f_L f < 4)) /\
  let '(v1, v2, v3) := f_v f in 1 <= v1 < 8 /\ 1 <= v2 < 8 /\ 1 <= v3 < 8.
Definition held (f : front) : bool := negb (N.eqb (f_S f) 0).

Lemma finv_init : finv f_init.
Proof. split; [left; split; reflexivity|]. cbn. lia. Qed.

Lemma s2l_bound s : s < 32 -> s2l s < 4.
Proof.
  intro H. apply N.ltb_lt. revert s H. apply by_upto. vm_compute. reflexivity.
Qed.
Lemma consg_nz g : consg g = true -> g <> 0.
Proof. intros H ->. vm_compute in H. discriminate. Qed.

Lemma flook_ok f c : finv f -> c <> ","%char ->
  let '(t, e) := flook f c in
  t < 21 /\ finv (fgo f c) /\
  (t <> 0 -> fe_act e = tact t /\ fe_set e = tset t /\ fe_inh e = tinh t /\
    (tset t = true -> held f = false /\ consg (snd (mapchar c)) = true) /\
    (tinh t = true -> held f = true /\ consg (snd (mapchar c)) = true) /\
    held (fgo f c) = match tact t with AC_CLR => false | AC_SFT => true | AC_FRZ => held f end).
Proof.
  intros [HS Hv] Hc. unfold fgo. unfold flook at 1 2 3. destruct f as [L Sv [[v1 v2] v3]]. cbn [f_v f_L f_S] in *.
  destruct Hv as (H1 & H2 & H3). unfold letter_token.
  pose proof (char_of c) as Cc. unfold chars_ok in Cc.
  destruct (mapchar c) as [up G] eqn:EG. cbn [snd] in *.
  destruct (G <? 32) eqn:G32; [|discriminate]. apply N.ltb_lt in G32.
  destruct (vmapchar c <? 8) eqn:v8; [|discriminate]. apply N.ltb_lt in v8.
  destruct (Ascii.eqb_spec c ","); [contradiction|].
  destruct (N.eqb_spec (vmapchar c) 0) as [|Nz]; [discriminate|].
  assert (BL : L < 4) by (destruct HS as [[-> ->]|(_ & _ & ?)]; lia).
  assert (BS : Sv < 32) by (destruct HS as [[-> ->]|(_ & ? & _)]; lia).
  pose proof (entry_of L Sv G BL BS G32) as E. unfold entry_ok in E.
  set (e := inact L Sv G) in *. set (t := fe_tok e) in *.
  destruct (t <? 16) eqn:T16; [|discriminate]. apply N.ltb_lt in T16.
  destruct (act_eqb (fe_act e) (tact t)) eqn:Ea; [|discriminate]. apply act_eqb_eq in Ea.
  destruct (Bool.eqb (fe_set e) (tset t)) eqn:Es; [|discriminate]. apply Bool.eqb_prop in Es.
  destruct (Bool.eqb (fe_inh e) (tinh t)) eqn:Ei; [|discriminate]. apply Bool.eqb_prop in Ei.
  pose proof (vc_of v2 v3 (vmapchar c) ltac:(lia) ltac:(lia) v8) as V. unfold vc_ok in V.
  set (vt := vcheck v2 v3 (vmapchar c)) in *.
  assert (N0 : (N.eqb v2 0 && N.eqb v3 0) = false) by (destruct (N.eqb_spec v2 0); [lia|reflexivity]).
  rewrite N0.
  assert (Fin : forall a, finv (fnext (Front L Sv (v1, v2, v3)) c a) \/ a = AC_SFT).
  { intros [| |]; [left|right; reflexivity|left]; (split; cbn; [|rewrite ?EG; cbn; lia]); [left; auto|exact HS]. }
  assert (FinS : consg G = true -> finv (fnext (Front L Sv (v1, v2, v3)) c AC_SFT)).
  { intro K. split; cbn; [right; rewrite EG; cbn [snd]; repeat split; auto; now apply s2l_bound|lia]. }
  assert (Hheld : forall a, held (fnext (Front L Sv (v1, v2, v3)) c a) =
     match a with AC_CLR => false | AC_SFT => negb (N.eqb G 0) | AC_FRZ => negb (N.eqb Sv 0) end).
  { intros [| |]; unfold held; cbn; rewrite ?EG; reflexivity. }
  rewrite Hheld.
  destruct (N.eqb_spec t 1) as [T1|T1].
  { (* vowel *)
    cbn [orb fst snd]. rewrite E in Cc. rewrite Cc in V. rewrite Ea, Es, Ei.
    unfold among_n in V. cbn [existsb] in V. rewrite !orb_true_iff, !N.eqb_eq in V.
    assert (tact t = AC_CLR) as -> by (rewrite T1; reflexivity).
    assert (tset t = false) as -> by (rewrite T1; reflexivity).
    assert (tinh t = false) as -> by (rewrite T1; reflexivity).
    split; [lia|]. split; [destruct (Fin AC_CLR) as [F|F]; [exact F|discriminate]|].
    intro Nt. repeat (destruct V as [V|V]; [try contradiction; rewrite V; cbn; repeat split; discriminate|]). discriminate. }
  destruct (N.eqb_spec t 3) as [T3|T3].
  { (* y *)
    cbn [orb fst snd]. apply N.eqb_eq in E. subst G. cbn in Cc. apply N.eqb_eq in Cc. rewrite Cc in V. cbn in V.
    unfold among_n in V. rewrite Ea, Es, Ei.
    cbn [existsb] in V. rewrite !orb_true_iff, !N.eqb_eq in V.
    assert (tact t = AC_FRZ) as -> by (rewrite T3; reflexivity).
    assert (tset t = false) as -> by (rewrite T3; reflexivity).
    assert (tinh t = false) as -> by (rewrite T3; reflexivity).
    split; [lia|]. split; [destruct (Fin AC_FRZ) as [F|F]; [exact F|discriminate]|].
    intro Nt. repeat (destruct V as [V|V]; [try contradiction; rewrite V; cbn; repeat split; discriminate|]). discriminate. }
  cbn [orb fst snd]. rewrite Ea, Es, Ei. split; [lia|].
  destruct (N.eqb_spec t 2) as [T2|T2].
  { split; [rewrite T2; destruct (Fin AC_CLR) as [F|F]; [exact F|discriminate]|].
    intros _. rewrite T2. cbn. repeat split; discriminate. }
  destruct (tset t) eqn:Tset.
  { destruct (consg G) eqn:CG; [|discriminate]. apply andb_prop in E. destruct E as [E1 E2].
    assert (A : tact t = AC_SFT).
    { unfold tset in Tset. unfold tact. destruct (among_n [3; 19; 20] t) eqn:K.
      - unfold among_n in K. cbn [existsb] in K. rewrite !orb_true_iff, !N.eqb_eq in K. lia.
      - apply andb_prop in Tset. destruct Tset as [A B]. rewrite A. apply N.leb_le in B.
        replace (t <=? 15) with true by (symmetry; apply N.leb_le; lia). reflexivity. }
    rewrite A. split; [apply FinS; reflexivity|]. intros _. split; [reflexivity|]. split; [reflexivity|].
    split; [reflexivity|]. split.
    - intros _. split; [|reflexivity]. unfold held. cbn [f_S]. destruct HS as [[-> _]|(K & _)]; [reflexivity|].
      rewrite K in E2. cbn in E2. rewrite orb_false_r in E2. rewrite E2. reflexivity.
    - split; [|destruct (N.eqb_spec G 0) as [->|_]; [now apply consg_nz in CG|reflexivity]].
      intro K. unfold tinh in K. unfold tset in Tset. apply andb_prop in K, Tset.
      destruct K as [K _], Tset as [_ Q]. apply N.leb_le in K, Q. lia. }
  destruct (tinh t) eqn:Tinh.
  { destruct (consg G) eqn:CG; [|discriminate]. destruct (consg Sv) eqn:CS; [|discriminate].
    assert (A : tact t = AC_SFT).
    { unfold tinh in Tinh. unfold tact. destruct (among_n [3; 19; 20] t) eqn:K.
      - unfold among_n in K. cbn [existsb] in K. rewrite !orb_true_iff, !N.eqb_eq in K.
        apply andb_prop in Tinh. destruct Tinh as [Q1 Q2]. apply N.leb_le in Q1, Q2. lia.
      - apply andb_prop in Tinh. destruct Tinh as [A B]. apply N.leb_le in A. rewrite B.
        replace (4 <=? t) with true by (symmetry; apply N.leb_le; lia). reflexivity. }
    rewrite A. split; [apply FinS; reflexivity|]. intros _. split; [reflexivity|]. split; [reflexivity|].
    split; [reflexivity|]. split; [discriminate|].
    split; [|destruct (N.eqb_spec G 0) as [->|_]; [now apply consg_nz in CG|reflexivity]].
    intros _. split; [|reflexivity]. unfold held. cbn [f_S].
    destruct (N.eqb_spec Sv 0) as [->|_]; [now apply consg_nz in CS|reflexivity]. }
  assert (t = 0) as T0.
  { unfold tset, tinh in *. rewrite andb_false_iff, !N.leb_gt in Tset, Tinh. lia. }
  split; [rewrite T0; destruct (Fin AC_CLR) as [F|F]; [exact F|discriminate]|]. intro K. contradiction.
Qed.
