(* Names: the check for la, lai and doi. *)
From Coq Require Import String Ascii List NArith Bool Arith Lia.
From Verif Require Import Base Arr DfaModel DfaTables MorfModel LujvoSpec MorfSpec MorfProofs MorfProofs2 MorfProofs3 MorfProofs5 MorfProofs7.
Import ListNotations.
Open Scope N_scope.
Open Scope list_scope.

(* ---- what went before, as numbers ---- *)
(* 0: nothing; 1: a vowel, or y after a vowel or '; 2: '; 3: a consonant; 4: y after a
   consonant or nothing *)
Definition b_ctx (c : N) (t : N) : N :=
  if t <? 5 then 1 else if t =? 5 then (if (c =? 0) || (c =? 3) then 4 else 1) else if t =? 9 then 2 else 3.
Definition b_open (c : N) : bool := (c =? 0) || (c =? 1) || (c =? 4).
(* how much of a mark: 0 none, 1 l, 2 la, 3 lai, 4 d, 5 do, 6 doi *)
Definition b_prog (c p t : N) : N :=
  if (t =? 7) && b_open c then 1 else if (t =? 6) && b_open c then 4
  else if (t =? 0) && (p =? 1) then 2 else if (t =? 2) && (p =? 2) then 3
  else if (t =? 3) && (p =? 4) then 5 else if (t =? 2) && (p =? 5) then 6 else 0.
(* did the mark come after y, 4 *)
Definition b_flag (c : N) (f : bool) (t : N) : bool := if (t =? 7) || (t =? 6) then c =? 4 else f.
Definition b_done (p : N) : bool := (p =? 2) || (p =? 3) || (p =? 6).
Definition b_close (t : N) : bool := (5 <? t).
(* no such transition *)
Definition b_unfit (c t : N) : bool :=
  if c =? 0 then t =? 9 else if c =? 2 then 5 <? t else if c =? 3 then t =? 9 else if c =? 4 then t <=? 5 else false.

Record bst : Set := Bst { b_m : N; b_c : N; b_p : N; b_f : bool }.
Definition beqb (x y : bst) : bool :=
  (b_m x =? b_m y) && (b_c x =? b_c y) && (b_p x =? b_p y) && Bool.eqb (b_f x) (b_f y).
Lemma beqb_eq x y : beqb x y = true -> x = y.
Proof.
  destruct x as [m c p f], y as [m' c' p' f']. unfold beqb. cbn [b_m b_c b_p b_f]. intro H.
  apply andb_true_iff in H. destruct H as [H1 H2]. apply andb_true_iff in H1. destruct H1 as [H1 H3].
  apply andb_true_iff in H1. destruct H1 as [H1 H4]. apply N.eqb_eq in H1, H3, H4. apply Bool.eqb_prop in H2. now subst.
Qed.
Definition b_fl (p : N) (f : bool) : bool := if p =? 0 then false else f.
Definition bstep (x : bst) (t : N) : option bst :=
  if t <? 10 then
    match next_state bc_tables (Some (b_m x)) t with
    | Ok (Some n) => if b_done (b_p x) && b_close t then None else
        let p := b_prog (b_c x) (b_p x) t in
        Some (Bst n (b_ctx (b_c x) t) p (b_fl p (b_flag (b_c x) (b_f x) t)))
    | _ => None
    end
  else None.
Definition b_init : bst := Bst 0 0 0 false.
Definition b_reach := Eval vm_compute in reach beqb b_m bstep b_init.
Lemma b_closed : closed_under beqb b_m bstep (index b_m b_reach) b_reach = true.
Proof. vm_compute. reflexivity. Qed.
Definition b_good (x : bst) : bool :=
  Bool.eqb (String.eqb (bc_exitval (b_m x)) "BC_CMENE_OK") (b_c x =? 3) &&
  match next_state bc_tables (Some (b_m x)) 11 with Ok None => true | _ => false end &&
  forallb (fun t => match next_state bc_tables (Some (b_m x)) t with
     | Ok None => b_unfit (b_c x) t
     | Ok (Some n) =>
         if b_unfit (b_c x) t && negb (b_done (b_p x) && b_close t) then false else
         let ns := String.eqb (bc_exitval n) "BC_CMENE_BAD_NOSPLIT" in
         let sp := String.eqb (bc_exitval n) "BC_CMENE_BAD_SPLIT" in
         if b_done (b_p x) && b_close t then Bool.eqb ns (b_f x) && Bool.eqb sp (negb (b_f x))
         else negb ns && negb sp && Bool.eqb (String.eqb (bc_attribute n) "ATTR_SEEN_LD")
                (let p := b_prog (b_c x) (b_p x) t in (p =? 1) || (p =? 4))
     | _ => false
     end) (upto 10).
Lemma b_all_good : forallb b_good b_reach = true.
Proof. vm_compute. reflexivity. Qed.
Lemma b_init_in : In b_init b_reach.
Proof. assert (existsb (beqb b_init) b_reach = true) as H by (vm_compute; reflexivity). apply existsb_exists in H. destruct H as (x & Hx & E). apply beqb_eq in E. now subst x. Qed.
Global Opaque b_reach.

Definition b_facts (x : bst) (t : N) : Prop :=
  match next_state bc_tables (Some (b_m x)) t with
  | Ok None => b_unfit (b_c x) t = true
  | Ok (Some n) =>
      (b_unfit (b_c x) t = true -> b_done (b_p x) && b_close t = true)
      /\ if b_done (b_p x) && b_close t then
           String.eqb (bc_exitval n) "BC_CMENE_BAD_NOSPLIT" = b_f x /\ String.eqb (bc_exitval n) "BC_CMENE_BAD_SPLIT" = negb (b_f x)
         else String.eqb (bc_exitval n) "BC_CMENE_BAD_NOSPLIT" = false /\ String.eqb (bc_exitval n) "BC_CMENE_BAD_SPLIT" = false
           /\ String.eqb (bc_attribute n) "ATTR_SEEN_LD" = (let p := b_prog (b_c x) (b_p x) t in (p =? 1) || (p =? 4))
           /\ In (let p := b_prog (b_c x) (b_p x) t in Bst n (b_ctx (b_c x) t) p (b_fl p (b_flag (b_c x) (b_f x) t))) b_reach
  | _ => False
  end.
Lemma b_fact x t : In x b_reach -> t < 10 -> b_facts x t.
Proof.
  intros Hx Ht. pose proof b_all_good as G. rewrite forallb_forall in G. specialize (G x Hx). unfold b_good in G.
  apply andb_true_iff in G. destruct G as [_ G]. pose proof (by_upto _ _ G t Ht) as K. cbv beta in K. unfold b_facts.
  assert (C := closed_run beqb beqb_eq b_m bstep b_reach b_closed [t] x).
  cbn [arun] in C. unfold bstep in C. apply N.ltb_lt in Ht. rewrite Ht in C. apply N.ltb_lt in Ht.
  destruct (next_state bc_tables (Some (b_m x)) t) as [[n|]| | | |]; try discriminate; [|exact K].
  destruct (b_unfit (b_c x) t) eqn:U; cbn [andb] in K.
  - destruct (b_done (b_p x) && b_close t); [|discriminate]. split; [auto|].
    apply andb_true_iff in K. destruct K as [K1 K2]. apply Bool.eqb_prop in K1, K2. auto.
  - split; [discriminate|]. destruct (b_done (b_p x) && b_close t).
    + apply andb_true_iff in K. destruct K as [K1 K2]. apply Bool.eqb_prop in K1, K2. auto.
    + apply andb_true_iff in K. destruct K as [K1 K2]. apply andb_true_iff in K1. destruct K1 as [K1 K3].
      apply negb_true_iff in K1, K3. apply Bool.eqb_prop in K2. repeat split; auto.
      apply C; [exact Hx|constructor; [lia|constructor]|reflexivity].
Qed.
Lemma b_exit x : In x b_reach -> String.eqb (bc_exitval (b_m x)) "BC_CMENE_OK" = (b_c x =? 3) /\ next_state bc_tables (Some (b_m x)) 11 = Ok None.
Proof.
  intros Hx. pose proof b_all_good as G. rewrite forallb_forall in G. specialize (G x Hx). unfold b_good in G.
  apply andb_true_iff in G. destruct G as [G _]. apply andb_true_iff in G. destruct G as [G1 G2]. apply Bool.eqb_prop in G1.
  split; [exact G1|]. destruct (next_state bc_tables (Some (b_m x)) 11) as [[]| | | |]; try discriminate. reflexivity.
Qed.

(* ---- the same of the letters so far, last one first ---- *)
Notation bt := bc_mapchar.
Fixpoint rc (r : list ascii) : N := match r with [] => 0 | c :: r => b_ctx (rc r) (bt c) end.
Fixpoint rp (r : list ascii) : N * bool :=
  match r with
  | [] => (0, false)
  | c :: r => let p := b_prog (rc r) (fst (rp r)) (bt c) in (p, b_fl p (b_flag (rc r) (snd (rp r)) (bt c)))
  end.
(* letters without commas and capitals *)
Definition small_letter (c : ascii) : Prop := capital c = false /\ c <> ","%char.
Definition tfacts (c : ascii) : bool :=
  if capital c then true else if Ascii.eqb c "," then true else
  let t := bt c in
  forallb (fun x => Bool.eqb (fst x) (snd x))
   [(vow c, t <? 5); (y c, t =? 5); (Ascii.eqb c "'", t =? 9); (Ascii.eqb c "l", t =? 7); (Ascii.eqb c "d", t =? 6);
    (Ascii.eqb c "a", t =? 0); (Ascii.eqb c "i", t =? 2); (Ascii.eqb c "o", t =? 3)]
  && ((t <? 10) || (t =? 11)).
Lemma tfact c : small_letter c ->
  vow c = (bt c <? 5) /\ y c = (bt c =? 5) /\ Ascii.eqb c "'" = (bt c =? 9) /\ Ascii.eqb c "l" = (bt c =? 7) /\ Ascii.eqb c "d" = (bt c =? 6)
  /\ Ascii.eqb c "a" = (bt c =? 0) /\ Ascii.eqb c "i" = (bt c =? 2) /\ Ascii.eqb c "o" = (bt c =? 3) /\ (bt c < 10 \/ bt c = 11).
Proof.
  intros [H1 H2]. pose proof (LujvoProofs.by_chars tfacts ltac:(vm_compute; reflexivity) c) as K. unfold tfacts in K. rewrite H1 in K.
  destruct (Ascii.eqb_spec c ","); [contradiction|]. cbn [forallb fst snd] in K.
  repeat match goal with H : _ && _ = true |- _ => apply andb_true_iff in H; destruct H end.
  repeat match goal with H : Bool.eqb _ _ = true |- _ => apply Bool.eqb_prop in H; rewrite H; clear H end.
  repeat split; auto. match goal with H : _ || _ = true |- _ => apply orb_true_iff in H; destruct H as [H|H]; [apply N.ltb_lt in H|apply N.eqb_eq in H]; auto end.
Qed.

Lemma rc_cons c r : small_letter c -> (rc (c :: r) =? 3) = true <-> vow c = false /\ y c = false /\ c <> "'"%char.
Proof.
  intro H. destruct (tfact c H) as (V & Y & Q & _). cbn [rc]. unfold b_ctx. rewrite V, Y.
  assert (c <> "'"%char <-> (bt c =? 9) = false) as -> by (rewrite <- Q; destruct (Ascii.eqb_spec c "'"); intuition congruence).
  destruct (bt c <? 5); [cbn; intuition discriminate|]. destruct (bt c =? 5); [destruct ((rc r =? 0) || (rc r =? 3)); cbn; intuition discriminate|].
  destruct (bt c =? 9); cbn; intuition discriminate.
Qed.
Lemma rc_zero r : (rc r =? 0) = true <-> r = [].
Proof.
  destruct r as [|c r]; [cbn; tauto|]. cbn [rc]. unfold b_ctx.
  split; [|discriminate]. destruct (bt c <? 5); [discriminate|]. destruct (bt c =? 5); [destruct ((rc r =? 0) || (rc r =? 3)); discriminate|].
  destruct (bt c =? 9); discriminate.
Qed.
Lemma rev_cons_app (r : list ascii) q x : rev r = q ++ [x] <-> r = x :: rev q.
Proof.
  split; intro H.
  - rewrite <- (rev_involutive r), H, rev_app_distr. reflexivity.
  - subst r. cbn [rev]. now rewrite rev_involutive.
Qed.
Lemma rc_open r : Forall small_letter r -> b_open (rc r) = true <-> open_left (rev r).
Proof.
  intro H. unfold open_left. destruct r as [|c r]; [cbn; intuition|].
  assert (rev (c :: r) = [] <-> False) as -> by (split; [cbn; intro E; now destruct (rev r)|tauto]).
  inversion H as [|? ? Hc _]; subst. destruct (tfact c Hc) as (V & Y & _).
  cbn [rc]. unfold b_ctx, b_open. split.
  - intro E. right. exists (rev r), c. split; [reflexivity|]. rewrite V, Y.
    destruct (bt c <? 5); [auto|]. destruct (bt c =? 5); [auto|]. destruct (bt c =? 9); discriminate.
  - intros [[]|(q & x & E & K)]. apply rev_cons_app in E. injection E as -> ->. rewrite V, Y in K.
    destruct (bt x <? 5); [reflexivity|]. destruct K as [K|K]; [discriminate|]. rewrite K.
    destruct ((rc (rev q) =? 0) || (rc (rev q) =? 3)); reflexivity.
Qed.
Lemma rc_Cy r : Forall small_letter r -> (rc r =? 4) = true <-> after_Cy (rev r).
Proof.
  intro H. unfold after_Cy. destruct r as [|c r].
  { cbn. split; [discriminate|]. intros (q & E & _). destruct q; discriminate E. }
  inversion H as [|? ? Hc Hr]; subst. destruct (tfact c Hc) as (V & Y & _). cbn [rc]. split.
  - unfold b_ctx. intro E. destruct (bt c <? 5); [discriminate|]. destruct (bt c =? 5); [|destruct (bt c =? 9); discriminate].
    exists (rev r). split; [cbn [rev]; do 2 f_equal; unfold MorfSpec.y in Y; now apply Ascii.eqb_eq in Y|].
    destruct ((rc r =? 0) || (rc r =? 3)) eqn:K; [|discriminate]. apply orb_true_iff in K. destruct K as [K|K].
    + apply rc_zero in K. subst r. left. reflexivity.
    + destruct r as [|d r]; [discriminate|]. inversion Hr as [|? ? Hd _]; subst. apply (rc_cons d r Hd) in K. right. exists (rev r), d. split; [reflexivity|exact K].
  - intros (q & E & K). apply rev_cons_app in E. injection E as -> ->. unfold b_ctx.
    assert ((bt "y" <? 5) = false) as -> by reflexivity. assert ((bt "y" =? 5) = true) as -> by reflexivity.
    assert ((rc (rev q) =? 0) || (rc (rev q) =? 3) = true) as ->; [|reflexivity].
    apply orb_true_iff. destruct K as [->|(q' & x & -> & K)]; [left; reflexivity|right].
    rewrite rev_app_distr in Hr |- *. cbn [rev app] in Hr |- *. inversion Hr; subst. apply rc_cons; auto.
Qed.

(* ---- where a mark is ---- *)
Definition pword (p : N) : list ascii := nth (N.to_nat p) [[]; text "l"; text "la"; text "lai"; text "d"; text "do"; text "doi"] [].
Lemma rp_mark r : Forall small_letter r -> fst (rp r) <> 0 ->
  exists pre, rev r = pre ++ pword (fst (rp r)) /\ open_left pre /\ (snd (rp r) = true <-> after_Cy pre) /\ fst (rp r) < 7.
Proof.
  induction r as [|c r IH]; intros H N0; [cbn in N0; congruence|]. inversion H as [|? ? Hc Hr]; subst. specialize (IH Hr).
  destruct (tfact c Hc) as (_ & _ & _ & TL & TD & TA & TI & TO & _).
  cbn [rp fst snd] in N0 |- *. unfold b_prog in *. unfold b_flag.
  destruct ((bt c =? 7) && b_open (rc r)) eqn:E1.
  { apply andb_true_iff in E1. destruct E1 as [E1 E2]. rewrite E1 in TL |- *. apply Ascii.eqb_eq in TL. subst c.
    exists (rev r). cbn [rev pword]. split; [reflexivity|]. split; [now apply rc_open|]. cbn [b_fl orb]. split; [now apply rc_Cy|reflexivity]. }
  destruct ((bt c =? 6) && b_open (rc r)) eqn:E2.
  { apply andb_true_iff in E2. destruct E2 as [E2 E3]. rewrite E2 in TD |- *. apply Ascii.eqb_eq in TD. subst c.
    exists (rev r). cbn [rev pword]. split; [reflexivity|]. split; [now apply rc_open|]. rewrite orb_true_r. cbn [b_fl]. split; [now apply rc_Cy|reflexivity]. }
  assert (S : forall p q x, fst (rp r) = p -> p <> 0 -> q <> 0 -> q < 7 -> c = x -> pword q = pword p ++ [x] -> (bt x =? 7) || (bt x =? 6) = false ->
     exists pre, rev (c :: r) = pre ++ pword q /\ open_left pre /\ (b_fl q (if (bt c =? 7) || (bt c =? 6) then rc r =? 4 else snd (rp r)) = true <-> after_Cy pre) /\ q < 7).
  { intros p q x Ep Np Nq Lq -> Ew Ex. destruct IH as (pre & R & O & F & _); [congruence|]. exists pre. cbn [rev]. rewrite R, Ep, Ew, app_assoc.
    split; [reflexivity|]. split; [exact O|]. rewrite Ex. unfold b_fl. apply N.eqb_neq in Nq. rewrite Nq. auto. }
  destruct ((bt c =? 0) && (fst (rp r) =? 1)) eqn:E3.
  { apply andb_true_iff in E3. destruct E3 as [E3 E4]. rewrite E3 in TA. apply Ascii.eqb_eq in TA. apply N.eqb_eq in E4.
    apply (S 1 2 "a"%char); first [assumption|discriminate|reflexivity]. }
  destruct ((bt c =? 2) && (fst (rp r) =? 2)) eqn:E4.
  { apply andb_true_iff in E4. destruct E4 as [E4 E5]. rewrite E4 in TI. apply Ascii.eqb_eq in TI. apply N.eqb_eq in E5.
    apply (S 2 3 "i"%char); first [assumption|discriminate|reflexivity]. }
  destruct ((bt c =? 3) && (fst (rp r) =? 4)) eqn:E5.
  { apply andb_true_iff in E5. destruct E5 as [E5 E6]. rewrite E5 in TO. apply Ascii.eqb_eq in TO. apply N.eqb_eq in E6.
    apply (S 4 5 "o"%char); first [assumption|discriminate|reflexivity]. }
  destruct ((bt c =? 2) && (fst (rp r) =? 5)) eqn:E6.
  { apply andb_true_iff in E6. destruct E6 as [E6 E7]. rewrite E6 in TI. apply Ascii.eqb_eq in TI. apply N.eqb_eq in E7.
    apply (S 5 6 "i"%char); first [assumption|discriminate|reflexivity]. }
  cbn [fst snd] in N0. congruence.
Qed.
(* and conversely *)
Lemma mark_rp r pre m : Forall small_letter r -> rev r = pre ++ m -> In m marks -> open_left pre -> pword (fst (rp r)) = m /\ b_done (fst (rp r)) = true.
Proof.
  intros H E M O. assert (R : r = rev m ++ rev pre) by (rewrite <- (rev_involutive r), E; apply rev_app_distr).
  assert (Hp : Forall small_letter (rev pre)) by (rewrite R in H; apply Forall_app in H; tauto).
  assert (P : b_open (rc (rev pre)) = true) by (apply rc_open; [exact Hp|now rewrite rev_involutive]).
  subst r. clear E H.
  assert (B : forall c q, rp (c :: q) = (b_prog (rc q) (fst (rp q)) (bt c), b_fl (b_prog (rc q) (fst (rp q)) (bt c)) (b_flag (rc q) (snd (rp q)) (bt c)))) by reflexivity.
  assert (L : fst (rp ("l"%char :: rev pre)) = 1) by (rewrite B; cbn [fst]; unfold b_prog; rewrite P; reflexivity).
  assert (D : fst (rp ("d"%char :: rev pre)) = 4) by (rewrite B; cbn [fst]; unfold b_prog; rewrite P; reflexivity).
  assert (LA : fst (rp ("a"%char :: "l"%char :: rev pre)) = 2) by (rewrite B; cbn [fst]; rewrite L; reflexivity).
  assert (DO : fst (rp ("o"%char :: "d"%char :: rev pre)) = 5) by (rewrite B; cbn [fst]; rewrite D; reflexivity).
  destruct M as [<-|[<-|[<-|[]]]]; cbn [text list_ascii_of_string rev app].
  - rewrite LA. auto.
  - rewrite B. cbn [fst]. rewrite LA. auto.
  - rewrite B. cbn [fst]. rewrite DO. auto.
Qed.

(* ---- the run ---- *)
Lemma rp_zero_flag r : fst (rp r) = 0 -> snd (rp r) = false.
Proof. destruct r as [|c r]; [reflexivity|]. cbn [rp fst snd]. intros ->. reflexivity. Qed.
Lemma same_front (a b c d : list ascii) : a ++ b = c ++ d -> length a = length c -> a = c /\ b = d.
Proof.
  revert c. induction a as [|x a IH]; intros [|z c] E L; try discriminate; [auto|]. injection E as -> E. injection L as L.
  destruct (IH c E L) as [-> ->]. auto.
Qed.
Lemma run_bad l : forall r m ns ld,
  Forall small_letter (r ++ l) -> In (Bst m (rc r) (fst (rp r)) (snd (rp r))) b_reach -> (ns = None \/ ns = Some m) ->
  (fst (rp r) <> 0 -> ld = Some (length r - length (pword (fst (rp r))))%nat) ->
  (forall pre w c post, mark_in (rev r ++ l) pre w c post -> (length r <= length (pre ++ w))%nat) ->
  forall i, bcl (btoks (letters (length r) l)) m ns ld = Ok i -> name_answer (rev r ++ l) i.
Proof.
  induction l as [|c l IH]; intros r m ns ld Hl Hin Hns Hld Hmin i E.
  - cbn [letters btoks map bcl] in E. rewrite app_nil_r in *.
    assert (i = CInfo (negb (rc r =? 3)) false None None) as ->.
    { destruct ns as [n|]; [|discriminate]. destruct Hns as [Hns|Hns]; [discriminate|]. injection Hns as ->.
      destruct (b_exit _ Hin) as [X _]. cbn [b_m b_c] in X. rewrite X in E. destruct (rc r =? 3); injection E as <-; reflexivity. }
    unfold name_answer. cbn [tail can_split is_bad]. repeat split.
    + intros pre w c post M. pose proof (Hmin _ _ _ _ M) as L. destruct M as (Q & _). apply (f_equal (@length ascii)) in Q.
      rewrite rev_length, !app_length in Q. cbn [length] in Q. rewrite app_length in L. lia.
    + intro N3. apply negb_false_iff in N3. destruct r as [|d r]; [discriminate|]. inversion Hl; subst. apply rc_cons in N3; [|assumption].
      exists (rev r), d. auto.
    + intros (q & x & Q & K). apply negb_false_iff. apply rev_cons_app in Q. subst r. inversion Hl; subst. now apply rc_cons.
  - assert (Hr : Forall small_letter r) by (apply Forall_app in Hl; tauto).
    assert (Hc : small_letter c) by (apply Forall_app in Hl; destruct Hl as [_ Hl]; now inversion Hl).
    cbn [letters] in E. destruct (Ascii.eqb_spec c ",") as [->|Nc]; [destruct Hc; congruence|].
    cbn [btoks map bcl fst snd] in E. fold (btoks (letters (S (length r)) l)) in E.
    destruct (tfact c Hc) as (V & Y & Q & TL & TD & TA & TI & TO & B).
    destruct B as [B|B].
    2:{ rewrite B in E. destruct (b_exit _ Hin) as [_ X]. cbn [b_m] in X. rewrite X in E. discriminate. }
    pose proof (b_fact _ _ Hin B) as F. unfold b_facts in F. cbn [b_m b_c b_p b_f] in F.
    destruct (next_state bc_tables (Some m) (bt c)) as [[n|]| | | |]; try destruct F; cbn [obind] in E; [|discriminate].
    destruct (b_done (fst (rp r)) && b_close (bt c)) eqn:Stop.
    + destruct H0 as [F1 F2]. rewrite F1, F2 in E.
      apply andb_true_iff in Stop. destruct Stop as [Dn Cl].
      assert (i = CInfo true (negb (snd (rp r))) ld (Some (length r))) as -> by (destruct (snd (rp r)); injection E as <-; reflexivity).
      assert (P0 : fst (rp r) <> 0) by (intro Z; rewrite Z in Dn; discriminate).
      destruct (rp_mark r Hr P0) as (pre & R & O & Fl & Lt).
      unfold name_answer. cbn [tail can_split is_bad ladoi]. exists pre, (pword (fst (rp r))), c, l.
      assert (LR : length (pre ++ pword (fst (rp r))) = length r) by (rewrite <- R; apply rev_length).
      split.
      { unfold mark_in. split; [rewrite R; now rewrite <- app_assoc|]. split.
        - unfold b_done in Dn. apply orb_true_iff in Dn. rewrite orb_true_iff in Dn. rewrite !N.eqb_eq in Dn.
          destruct Dn as [[D|D]|D]; rewrite D; cbn; auto.
        - split; [exact O|]. unfold closes, b_close in *. rewrite V, Y. apply N.ltb_lt in Cl. rewrite N.ltb_ge, N.eqb_neq. lia. }
      split; [intros pre' m' c' post' M; rewrite LR; eapply Hmin; exact M|].
      split; [reflexivity|]. split; [rewrite (Hld P0); f_equal; rewrite <- LR, app_length; lia|]. split; [now rewrite LR|].
      rewrite negb_false_iff. exact Fl.
    + destruct H0 as (F1 & F2 & F3 & F4). rewrite F1, F2, F3 in E.
      replace (rev r ++ c :: l) with (rev (c :: r) ++ l) by (cbn [rev]; now rewrite <- app_assoc).
      refine (IH (c :: r) n (Some n) _ _ F4 _ _ _ i E).
      * apply Forall_app in Hl. destruct Hl as [H1 H2]. inversion H2; subst. apply Forall_app. split; [constructor|]; assumption.
      * right. reflexivity.
      * intro P0. cbn [rp fst snd length] in P0 |- *. cbv zeta. unfold b_prog in *.
        destruct ((bt c =? 7) && b_open (rc r)); [transitivity (Some (length r)); [reflexivity|f_equal; change (length (pword 1)) with 1%nat; lia]|].
        destruct ((bt c =? 6) && b_open (rc r)); [transitivity (Some (length r)); [reflexivity|f_equal; change (length (pword 4)) with 1%nat; lia]|].
        assert (S : forall p q, fst (rp r) = p -> p <> 0 -> (length (pword q) = S (length (pword p)))%nat -> (q =? 1) || (q =? 4) = false ->
           (if (q =? 1) || (q =? 4) then Some (length r) else ld) = Some (S (length r) - length (pword q))%nat).
        { intros p q Ep Np L -> . rewrite Hld by congruence. f_equal. rewrite Ep. lia. }
        destruct ((bt c =? 0) && (fst (rp r) =? 1)) eqn:E3; [apply andb_true_iff in E3; destruct E3 as [_ E3]; apply N.eqb_eq in E3; apply (S 1); first [assumption|discriminate|reflexivity]|].
        destruct ((bt c =? 2) && (fst (rp r) =? 2)) eqn:E4; [apply andb_true_iff in E4; destruct E4 as [_ E4]; apply N.eqb_eq in E4; apply (S 2); first [assumption|discriminate|reflexivity]|].
        destruct ((bt c =? 3) && (fst (rp r) =? 4)) eqn:E5; [apply andb_true_iff in E5; destruct E5 as [_ E5]; apply N.eqb_eq in E5; apply (S 4); first [assumption|discriminate|reflexivity]|].
        destruct ((bt c =? 2) && (fst (rp r) =? 5)) eqn:E6; [apply andb_true_iff in E6; destruct E6 as [_ E6]; apply N.eqb_eq in E6; apply (S 5); first [assumption|discriminate|reflexivity]|].
        congruence.
      * intros pre w c' post M. pose proof (Hmin pre w c' post) as L. cbn [rev] in M. rewrite <- app_assoc in M. specialize (L M). cbn [length].
        destruct (Nat.eq_dec (length r) (length (pre ++ w))) as [LE|]; [|lia]. exfalso.
        destruct M as (M1 & M2 & M3 & M4 & M5). rewrite (app_assoc pre) in M1. cbn [app] in M1.
        destruct (same_front _ _ _ _ M1) as [R1 R2]; [now rewrite rev_length|]. injection R2 as <- <-.
        destruct (mark_rp r pre w Hr R1 M2 M3) as [_ Dn]. rewrite Dn in Stop. cbn [andb] in Stop. unfold b_close in Stop.
        rewrite V in M4. rewrite Y in M5. apply N.ltb_ge in Stop, M4. apply N.eqb_neq in M5. lia.
Qed.
Lemma plain_small w : Forall small_letter (plain w).
Proof.
  apply Forall_forall. intros c H. split.
  - pose proof (plain_no_capital w) as P. destruct (capital c) eqn:C; [|reflexivity].
    assert (existsb capital (plain w) = true) by (apply existsb_exists; eauto). congruence.
  - intros ->. pose proof (plain_no_comma w) as P. rewrite Forall_forall in P. specialize (P _ H). discriminate P.
Qed.
Lemma name_checked w i : is_bad_cmene w = Ok i -> exists i', name_answer (plain w) i' /\ i = imap (at_letter w) i'.
Proof.
  rewrite bad_plain. destruct (is_bad_cmene (plain w)) as [i'| | | |] eqn:E; try discriminate. cbn [omap obind]. intro H. injection H as <-.
  exists i'. split; [|reflexivity]. unfold is_bad_cmene in E. rewrite bc_loop_bcl in E.
  refine (run_bad (plain w) [] 0 None None _ b_init_in _ _ _ i' E).
  - apply plain_small.
  - left. reflexivity.
  - intro H. cbn in H. congruence.
  - intros. cbn [length]. lia.
Qed.

(* ---- when there is an answer ---- *)
Lemma run_defined l : forall r m ns ld, Forall small_letter (r ++ l) -> In (Bst m (rc r) (fst (rp r)) (snd (rp r))) b_reach ->
  (forall a c b, l = a ++ c :: b -> name_step (rev r ++ a) c) -> Forall name_letter l -> (ns = None -> l <> []) ->
  exists i, bcl (btoks (letters (length r) l)) m ns ld = Ok i.
Proof.
  induction l as [|c l IH]; intros r m ns ld Hl Hin Hst Hn Hns.
  - destruct ns as [n|]; [|now destruct (Hns eq_refl)]. cbn [letters btoks map bcl]. destruct (String.eqb (bc_exitval n) "BC_CMENE_OK"); eauto.
  - assert (Hr : Forall small_letter r) by (apply Forall_app in Hl; tauto).
    assert (Hc : small_letter c) by (apply Forall_app in Hl; destruct Hl as [_ Hl]; now inversion Hl).
    cbn [letters]. destruct (Ascii.eqb_spec c ",") as [->|Nc]; [destruct Hc; congruence|].
    cbn [btoks map bcl fst snd]. fold (btoks (letters (S (length r)) l)).
    inversion Hn as [|? ? N1 N2]; subst.
    destruct (tfact c Hc) as (V & Y & Q & TL & TD & TA & TI & TO & B).
    destruct B as [B|B]; [|exfalso].
    2:{ pose proof (LujvoProofs.by_chars (fun c => if N.eqb (bt c) 11 then negb (among "abcdefghijklmnopqrstuvwxyz'" c) else true) ltac:(vm_compute; reflexivity) c) as K.
        cbv beta in K. rewrite B in K. unfold name_letter in N1. rewrite N1 in K. discriminate. }
    pose proof (b_fact _ _ Hin B) as F. unfold b_facts in F. cbn [b_m b_c b_p b_f] in F.
    destruct (next_state bc_tables (Some m) (bt c)) as [[n|]| | | |]; cbn [obind]; try contradiction.
    + destruct (String.eqb (bc_exitval n) "BC_CMENE_BAD_NOSPLIT") eqn:X1; [eauto|].
      destruct (String.eqb (bc_exitval n) "BC_CMENE_BAD_SPLIT") eqn:X2; [eauto|].
      destruct F as [_ F]. destruct (b_done (fst (rp r)) && b_close (bt c)).
      { destruct F as [F1 F2]. destruct (snd (rp r)); [congruence|discriminate]. }
      destruct F as (_ & _ & _ & F4).
      refine (IH (c :: r) n (Some n) _ _ F4 _ N2 _); [|intros a d b E|discriminate].
      * apply Forall_app in Hl. destruct Hl as [H1 H2]. inversion H2; subst. apply Forall_app. split; [constructor|]; assumption.
      * specialize (Hst (c :: a) d b). cbn [rev]. rewrite <- app_assoc. cbn [app]. apply Hst. now rewrite E.
    + exfalso. specialize (Hst [] c l eq_refl). rewrite app_nil_r in Hst. unfold name_step in Hst. destruct Hst as [S1 [S2 S3]].
      unfold b_unfit in F. destruct (rc r =? 0) eqn:R0.
      { apply rc_zero in R0. subst r. rewrite <- Q in F. apply Ascii.eqb_eq in F. now apply S1 in F as (q & x & EE & _); destruct q. }
      destruct r as [|d r]; [discriminate|]. inversion Hr as [|? ? Hd Hr']; subst. destruct (tfact d Hd) as (Vd & Yd & Qd & _).
      destruct (rc (d :: r) =? 2) eqn:R2.
      { assert (d = "'"%char).
        { cbn [rc] in R2. unfold b_ctx in R2. destruct (bt d <? 5); [discriminate|]. destruct (bt d =? 5); [destruct ((rc r =? 0) || (rc r =? 3)); discriminate|].
          destruct (bt d =? 9); [now apply Ascii.eqb_eq|discriminate]. }
        subst d. destruct (S2 (rev r) eq_refl) as [S|S]; rewrite ?V, ?Y in S; [apply N.ltb_lt in S|apply N.eqb_eq in S]; apply N.ltb_lt in F; lia. }
      destruct (rc (d :: r) =? 3) eqn:R3.
      { rewrite <- Q in F. apply Ascii.eqb_eq in F. destruct (S1 F) as (q & x & EE & K). apply rev_cons_app in EE. injection EE as -> ->.
        apply rc_cons in R3; [|exact Hd]. destruct R3 as (K1 & K2 & _). destruct K; congruence. }
      destruct (rc (d :: r) =? 4) eqn:R4; [|discriminate].
      apply rc_Cy in R4; [|exact Hr]. destruct (S3 R4) as [S4 S5]. rewrite V in S4. rewrite Y in S5.
      apply N.ltb_ge in S4. apply N.eqb_neq in S5. apply N.leb_le in F. lia.
Qed.
Lemma name_defined w : letters_of w <> [] -> Forall name_letter (plain w) ->
  (forall a c b, plain w = a ++ c :: b -> name_step a c) -> exists i, is_bad_cmene w = Ok i.
Proof.
  intros Hne Hl Hs. rewrite bad_plain. unfold is_bad_cmene. rewrite bc_loop_bcl.
  destruct (run_defined (plain w) [] 0 None None) as [i E].
  - apply plain_small.
  - apply b_init_in.
  - exact Hs.
  - exact Hl.
  - intros _ E. unfold plain in E. destruct (letters_of w); [congruence|discriminate].
  - cbn [length] in E. rewrite E. cbn. eauto.
Qed.
