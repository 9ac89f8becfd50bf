(* The scan in terms of tokens. *)
From Coq Require Import String Ascii List NArith Bool Arith Lia.
From Verif Require Import Base Arr DfaModel DfaTables MorfModel MorfProofs.
Import ListNotations.
Open Scope N_scope.
Open Scope list_scope.

(* the letters with their offsets *)
Fixpoint letters (p : nat) (w : list ascii) : list (nat * ascii) :=
  match w with
  | [] => []
  | c :: w => if Ascii.eqb c "," then letters (S p) w else (p, c) :: letters (S p) w
  end.
Fixpoint ptoks (f : front) (l : list (nat * ascii)) : list (nat * N) :=
  match l with
  | [] => []
  | (p, c) :: l => (p, ftok f c) :: ptoks (fgo f c) l
  end.
Fixpoint fend (f : front) (l : list (nat * ascii)) : front :=
  match l with [] => f | (p, c) :: l => fend (fgo f c) l end.
Definition ups (l : list (nat * ascii)) : bool := existsb (fun x => fst (mapchar (snd x))) l.

(* the rest of the scanner's variables *)
Record tst : Type := TSt {
  ts_m : N; ts_starts : list nat; ts_cy : list nat; ts_inh : bool; ts_ini : bool; ts_last : act;
  ts_p1 : option nat; ts_p2 : option nat; ts_h3 : option nat; ts_h4 : option nat }.
Definition t_init : tst := TSt 0 [] [] false true AC_CLR None None None None.
Definition att (s : N) (a b : string) : bool :=
  String.eqb (morf_attribute s) a || String.eqb (morf_attribute s) b.
Definition tstep (st : tst) (x : nat * N) : option tst :=
  let '(p, t) := x in
  match nx (ts_m st) t with
  | None => None
  | Some s =>
      let inh := ts_inh st || tinh t in
      Some (TSt s
        (if (tset t && negb inh) || ts_ini st then p :: ts_starts st else ts_starts st)
        (match ts_last st, tact t with AC_FRZ, AC_SFT => p :: ts_cy st | _, _ => ts_cy st end)
        inh false (tact t) (Some p) (ts_p1 st)
        (if att (ts_m st) "AT_S3_3" "AT_XS3_3" then ts_p2 st else ts_h3 st)
        (if att (ts_m st) "AT_S3_4" "AT_XS3_4" then ts_p2 st else ts_h4 st))
  end.
Fixpoint trun (st : tst) (l : list (nat * N)) : option tst :=
  match l with
  | [] => Some st
  | x :: l => match tstep st x with None => None | Some st => trun st l end
  end.
Definition conc (f : front) (up : bool) (st : tst) : mstate :=
  MState (f_L f) (f_S f) (f_v f) (ts_starts st) (ts_cy st) (ts_inh st) (ts_ini st) (ts_last st)
    (ts_p1 st) (ts_p2 st) (ts_h3 st) (ts_h4 st) up (ts_m st).

Definition unk_dead : forallb (fun s => match nx s 0 with None => true | Some _ => false end) (upto n_states) = true.
Proof. vm_compute. reflexivity. Qed.
Lemma nx_unk s : s < n_states -> nx s 0 = None.
Proof.
  intro H. pose proof (by_upto _ _ unk_dead s H) as K. cbv beta in K. destruct (nx s 0); [discriminate|reflexivity].
Qed.

Lemma step_ok f up st p c : finv f -> c <> ","%char -> ts_m st < n_states ->
  morf_step p c (conc f up st) =
  Ok (match tstep st (p, ftok f c) with
      | None => None
      | Some st' => Some (conc (fgo f c) (up || fst (mapchar c)) st')
      end)
  /\ finv (fgo f c) /\ (forall st', tstep st (p, ftok f c) = Some st' -> ts_m st' < n_states).
Proof.
  intros Hf Hc Hm. pose proof (flook_ok f c Hf Hc) as K. unfold ftok, fgo in *.
  unfold morf_step, conc. cbn [m_L m_S m_vsm m_starts m_cstart m_inhibited m_initial m_last m_p1 m_p2 m_hyph3 m_hyph4 m_upper m_state].
  unfold flook in *. destruct f as [L Sv [[v1 v2] v3]]. cbn [f_L f_S f_v] in *.
  destruct (mapchar c) as [u G] eqn:EG.
  destruct (letter_token L Sv (v2, v3, vmapchar c) c) as [t e]. cbn [fst snd] in *.
  destruct K as (Ht & Hf' & K). split; [|split; [exact Hf'|]].
  - destruct (nx_ok (ts_m st) t Hm Ht) as [E _]. rewrite E. cbn [obind].
    unfold tstep. destruct (N.eq_dec t 0) as [->|Nt].
    + rewrite (nx_unk _ Hm). destruct (fe_act e); reflexivity.
    + destruct (K Nt) as (Ea & Es & Ei & _). rewrite Ea, Es, Ei.
      destruct (nx (ts_m st) t) as [s|]; [|destruct (tact t); reflexivity].
      unfold att. unfold fnext. cbn [f_v f_L f_S]. rewrite EG. cbn [snd].
      destruct (tact t); reflexivity.
  - unfold tstep. intros st' H. destruct (nx (ts_m st) t) as [s|] eqn:E; [|discriminate]. injection H as <-.
    exact (proj2 (nx_ok (ts_m st) t Hm Ht) s E).
Qed.

Lemma loop_ok : forall w p f up st, finv f -> ts_m st < n_states ->
  morf_loop p w (conc f up st) =
  Ok (match trun st (ptoks f (letters p w)) with
      | None => None
      | Some st' => Some (conc (fend f (letters p w)) (up || ups (letters p w)) st')
      end).
Proof.
  induction w as [|c w IH]; intros p f up st Hf Hm; cbn [morf_loop letters].
  - cbn [ptoks trun fend ups existsb]. now rewrite orb_false_r.
  - destruct (Ascii.eqb_spec c ",") as [->|Hc]; [exact (IH (S p) f up st Hf Hm)|].
    destruct (step_ok f up st p c Hf Hc Hm) as (E & Hf' & Hs). rewrite E. cbn [obind ptoks trun fend].
    destruct (tstep st (p, ftok f c)) as [st'|]; [|reflexivity].
    rewrite IH; [|exact Hf'|apply Hs; reflexivity].
    destruct (trun st' _); [|reflexivity]. unfold ups. cbn [existsb snd]. now rewrite orb_assoc.
Qed.

Definition toks_of (w : list ascii) : list (nat * N) := ptoks f_init (letters 0 w).

Lemma scan_ok cult w :
  morf_scan cult w =
  match trun t_init (toks_of w) with
  | None => Ok (Scan MT_BOGUS [] None None)
  | Some st => morf_end cult w (conc (fend f_init (letters 0 w)) (ups (letters 0 w)) st)
  end.
Proof.
  unfold morf_scan. change m_init with (conc f_init false t_init).
  rewrite loop_ok; [|exact finv_init|exact zero_state]. cbn [obind orb]. unfold toks_of.
  destruct (trun t_init (ptoks f_init (letters 0 w))); reflexivity.
Qed.

(* token lists that can come from letters *)
Fixpoint feasible (h : bool) (l : list N) : Prop :=
  match l with
  | [] => True
  | t :: l => t < 21 /\ (t <> 0 -> (tset t = true -> h = false) /\ (tinh t = true -> h = true) /\
                feasible (match tact t with AC_CLR => false | AC_SFT => true | AC_FRZ => h end) l)
  end.
Lemma letters_no_comma : forall w p, Forall (fun x => snd x <> ","%char) (letters p w).
Proof.
  induction w as [|c w IH]; intro p; cbn [letters]; [constructor|].
  destruct (Ascii.eqb_spec c ","); [apply IH|]. constructor; [exact n|apply IH].
Qed.
Lemma ptoks_feasible : forall l f, finv f -> Forall (fun x => snd x <> ","%char) l ->
  feasible (held f) (map snd (ptoks f l)).
Proof.
  induction l as [|[p c] l IH]; intros f Hf Hl; cbn [ptoks map feasible snd]; [exact I|].
  inversion Hl as [|? ? Hc Hl' E]; subst. cbn [snd] in Hc.
  pose proof (flook_ok f c Hf Hc) as K. unfold ftok. destruct (flook f c) as [t e] eqn:Ef. cbn [fst].
  destruct K as (Ht & Hf' & K). split; [exact Ht|]. intro Nt. destruct (K Nt) as (_ & _ & _ & A & B & C).
  split; [apply A|]. split; [apply B|]. rewrite <- C. now apply IH.
Qed.

Lemma by_chars_cons c : consg (snd (mapchar c)) = true -> vmapchar c = 1.
Proof.
  pose proof (LujvoProofs.by_chars (fun c => if consg (snd (mapchar c)) then N.eqb (vmapchar c) 1 else true)
    ltac:(vm_compute; reflexivity) c) as H. cbv beta in H. intro E. rewrite E in H. now apply N.eqb_eq.
Qed.
(* a letter that begins a cluster wipes out what came before *)
Definition vsame_ok : forallb (fun i => forallb (fun i' => forallb (fun k => N.eqb (vcheck i 1 k) (vcheck i' 1 k)) (upto 8)) (upto 8)) (upto 8) = true.
Proof. vm_compute. reflexivity. Qed.
Lemma vsame i i' k : i < 8 -> i' < 8 -> k < 8 -> vcheck i 1 k = vcheck i' 1 k.
Proof.
  intros H1 H2 H3. apply N.eqb_eq.
  exact (by_upto _ _ (by_upto _ _ (by_upto _ _ vsame_ok i H1) i' H2) k H3).
Qed.
Lemma vmap_lt c : vmapchar c < 8.
Proof.
  pose proof (char_of c) as H. unfold chars_ok in H. destruct (snd (mapchar c) <? 32); [|discriminate].
  destruct (vmapchar c <? 8) eqn:E; [|discriminate]. now apply N.ltb_lt.
Qed.
Lemma ptoks_v : forall l L Sv v1 v2 u1 u2 b, 1 <= v2 < 8 -> 1 <= u2 < 8 ->
  b = 1 \/ (v2 = 1 /\ u2 = 1 /\ b < 8) ->
  ptoks (Front L Sv (v1, v2, b)) l = ptoks (Front L Sv (u1, u2, b)) l.
Proof.
  induction l as [|[p c] l IH]; intros L Sv v1 v2 u1 u2 b Hv Hu Hb; cbn [ptoks]; [reflexivity|].
  assert (E : flook (Front L Sv (v1, v2, b)) c = flook (Front L Sv (u1, u2, b)) c).
  { unfold flook, letter_token. cbn [f_v f_L f_S].
    assert (vcheck v2 b (vmapchar c) = vcheck u2 b (vmapchar c)) as ->.
    { destruct Hb as [->|(-> & -> & _)]; [apply vsame; try lia; apply vmap_lt|reflexivity]. }
    replace (N.eqb v2 0) with false by (symmetry; apply N.eqb_neq; lia).
    replace (N.eqb u2 0) with false by (symmetry; apply N.eqb_neq; lia). reflexivity. }
  unfold ftok, fgo. rewrite E. f_equal. unfold fnext. cbn [f_v f_L f_S].
  assert (V1 : vmapchar c < 8) by apply vmap_lt.
  assert (Gen : forall L' S', ptoks (Front L' S' (v2, b, vmapchar c)) l = ptoks (Front L' S' (u2, b, vmapchar c)) l).
  { intros L' S'. destruct Hb as [->|(-> & -> & B)].
    - apply IH; [lia|lia|]. right. auto.
    - reflexivity. }
  destruct (fe_act _); apply Gen.
Qed.

(* the tokens of a word whose first letter comes after a clear state *)
Lemma ptoks_fresh f p c l : finv f -> c <> ","%char -> tset (ftok f c) = true ->
  ptoks f ((p, c) :: l) = ptoks f_init ((p, c) :: l).
Proof.
  intros Hf Hc Ht. pose proof (flook_ok f c Hf Hc) as K. unfold ftok in *.
  cbn [ptoks]. unfold ftok, fgo. destruct (flook f c) as [t e] eqn:Ef. cbn [fst snd] in *.
  destruct K as (H21 & Hf' & K). assert (Nt : t <> 0) by (intros ->; discriminate).
  destruct (K Nt) as (Ea & Es & Ei & A & _). destruct (A Ht) as [Hh HG].
  destruct f as [L Sv [[v1 v2] v3]]. unfold held in Hh. cbn [f_S] in Hh.
  apply negb_false_iff, N.eqb_eq in Hh. subst Sv.
  assert (HL : L = 0).
  { destruct Hf as [[[_ E]|(E & _)] _]; [exact E|]. cbn in E. vm_compute in E. discriminate. }
  subst L. destruct Hf as [_ (Hv1 & Hv2 & Hv3)].
  assert (Nv : fe_tok e <> 1 /\ fe_tok e <> 3).
  { unfold flook, letter_token in Ef. cbn [f_v f_L f_S] in Ef.
    set (e0 := inact 0 0 (snd (mapchar c))) in *.
    pose proof (char_of c) as Cc. unfold chars_ok in Cc.
    destruct (snd (mapchar c) <? 32) eqn:G32; [|discriminate]. apply N.ltb_lt in G32.
    pose proof (entry_of 0 0 (snd (mapchar c)) ltac:(lia) ltac:(lia) G32) as En. unfold entry_ok in En.
    fold e0 in En. destruct (fe_tok e0 <? 16); [|discriminate].
    destruct (act_eqb (fe_act e0) (tact (fe_tok e0))) eqn:Q; [|discriminate]. apply act_eqb_eq in Q.
    injection Ef as Et Ee. subst e0. rewrite Ee in *.
    assert (tact t = AC_SFT).
    { clear - Ht. unfold tset in Ht. apply andb_prop in Ht. destruct Ht as [A B]. apply N.leb_le in A, B.
      assert (t = 4 \/ t = 5 \/ t = 6) as [-> | [-> | ->]] by lia; reflexivity. }
    split; intro X; rewrite X in Q; cbn in Q; congruence. }
  unfold flook, letter_token, f_init in *. cbn [f_v f_L f_S] in *.
  injection Ef as Et Ee.
  rewrite Ee in *. destruct Nv as [N1 N3]. apply N.eqb_neq in N1, N3.
  rewrite N1, N3 in *. cbn [orb] in *.
  replace (N.eqb v2 0) with false in * by (symmetry; apply N.eqb_neq; lia). cbn [andb] in *.
  change (N.eqb 1 0) with false. cbn [andb]. cbn [fst snd]. rewrite Et. f_equal.
  unfold fnext. cbn [f_v f_L f_S]. rewrite Ea.
  assert (tact t = AC_SFT) as ->.
  { clear - Ht. unfold tset in Ht. apply andb_prop in Ht. destruct Ht as [A B]. apply N.leb_le in A, B.
    assert (t = 4 \/ t = 5 \/ t = 6) as [-> | [-> | ->]] by lia; reflexivity. }
  assert (V : vmapchar c = 1).
  { clear - HG Hc. pose proof (by_chars_cons c) as H. auto. }
  rewrite V. apply ptoks_v; [lia|lia|left; reflexivity].
Qed.
