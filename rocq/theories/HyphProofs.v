(* Where the hyphen of a stage-3 borrowing is: the states of the scanner that note it
   are reached through one of a few shapes only, and at a fixed distance from the
   start of the word. *)
From Coq Require Import String Ascii List NArith Bool Arith Lia FMapPositive.
From Verif Require Import Base Arr DfaModel DfaTables MorfModel MorfProofs MorfProofs2 MorfProofs3 MorfProofs4 MorfProofs5.
Import ListNotations.
Open Scope N_scope.
Open Scope list_scope.

Definition flag (a : arr bool) (s : N) : bool := match aget a s with Some b => b | None => false end.
Definition at3c := Eval vm_compute in aof (map (fun s => att s "AT_S3_3" "AT_XS3_3") (upto 737)).
Definition at4c := Eval vm_compute in aof (map (fun s => att s "AT_S3_4" "AT_XS3_4") (upto 737)).
Definition at3 (s : N) : bool := flag at3c s.
Definition at4 (s : N) : bool := flag at4c s.
Lemma at_checked : forallb (fun s => if Bool.eqb (att s "AT_S3_3" "AT_XS3_3") (at3 s) then Bool.eqb (att s "AT_S3_4" "AT_XS3_4") (at4 s) else false) (upto 737) = true.
Proof. vm_compute. reflexivity. Qed.
Lemma at_ok s : s < n_states -> att s "AT_S3_3" "AT_XS3_3" = at3 s /\ att s "AT_S3_4" "AT_XS3_4" = at4 s.
Proof.
  intro H. pose proof (by_upto _ _ at_checked s H) as K. cbv beta in K.
  destruct (Bool.eqb _ _) eqn:E in K; [|discriminate]. apply Bool.eqb_prop in E, K. auto.
Qed.
Global Opaque at3 at4.

(* ---- backwards from a state ---- *)
Definition pre_tab : arr (list (N * N)) := Eval vm_compute in
  fold_left (fun a s => fold_left (fun a t => match nx s t with
      Some y => aset a y ((s, t) :: match aget a y with Some l => l | None => [] end) | None => a end) (upto 21) a)
    (upto 737) (PositiveMap.empty _).
Definition pre (s : N) : list (N * N) := match aget pre_tab s with Some l => l | None => [] end.
Definition pair_eqb (x y : N * N) : bool := if N.eqb (fst x) (fst y) then N.eqb (snd x) (snd y) else false.
Lemma pre_checked : forallb (fun s => forallb (fun t => match nx s t with Some y => existsb (pair_eqb (s, t)) (pre y) | None => true end) (upto 21)) (upto 737) = true.
Proof. vm_compute. reflexivity. Qed.
Lemma pre_in s t y : s < n_states -> t < 21 -> nx s t = Some y -> In (s, t) (pre y).
Proof.
  intros S T E. pose proof (by_upto _ _ (by_upto _ _ pre_checked s S) t T) as K. cbv beta in K. rewrite E in K.
  apply existsb_exists in K. destruct K as ((a & b) & I & Q). unfold pair_eqb in Q. cbn [fst snd] in Q.
  destruct (N.eqb_spec s a) as [->|]; [|discriminate]. apply N.eqb_eq in Q. subst b. exact I.
Qed.

(* a shape: for each token, the last first, what it may be *)
Definition strip (t : N) (ws : list (list (list N))) : list (list (list N)) :=
  flat_map (fun w => match w with d :: w => if among_n d t then [w] else [] | [] => [] end) ws.
Definition done (ws : list (list (list N))) : bool := existsb (fun w => match w with [] => true | _ => false end) ws.
Fixpoint only (f : nat) (ws : list (list (list N))) (s : N) : bool :=
  match f with
  | O => false
  | S f => if N.eqb s 0 then false else
      forallb (fun x => let ws := strip (snd x) ws in
        match ws with [] => false | _ => if done ws then true else only f ws (fst x) end) (pre s)
  end.
Fixpoint fits (w : list (list N)) (l : list N) : Prop :=
  match w, l with
  | [], _ => True
  | d :: w, t :: l => among_n d t = true /\ fits w l
  | _, [] => False
  end.
Lemma strip_in t w ws : In w (strip t ws) -> exists d, In (d :: w) ws /\ among_n d t = true.
Proof.
  unfold strip. intro H. apply in_flat_map in H. destruct H as ([|d v] & I & H); [destruct H|].
  destruct (among_n d t) eqn:E; [|destruct H]. destruct H as [->|[]]. eauto.
Qed.
Lemma trun_bound l : forall st st', trun st l = Some st' -> ts_m st < n_states -> Forall (fun x => snd x < 21) l -> ts_m st' < n_states.
Proof.
  induction l as [|[p t] l IH]; intros st st' E B F; cbn [trun] in E; [injection E as <-; exact B|].
  inversion F as [|? ? T F']; subst. cbn [snd] in T. destruct (tstep st (p, t)) as [s1|] eqn:S; [|discriminate].
  unfold tstep in S. destruct (nx (ts_m st) t) as [y|] eqn:X; [|discriminate]. injection S as <-.
  apply (IH _ _ E); [|exact F']. cbn [ts_m]. exact (proj2 (nx_ok _ t B T) y X).
Qed.
Lemma only_ok f : forall ws s l st, only f ws s = true -> trun t_init l = Some st -> ts_m st = s -> Forall (fun x => snd x < 21) l ->
  exists w, In w ws /\ fits w (map snd (rev l)).
Proof.
  induction f as [|f IH]; intros ws s l st O E M F; [discriminate|]. cbn [only] in O.
  destruct (N.eqb_spec s 0) as [|NZ]; [discriminate|].
  destruct l as [|z l] using rev_ind; [cbn in E; injection E as <-; subst s; destruct NZ; reflexivity|]. clear IHl.
  destruct z as [p t]. rewrite trun_app in E. destruct (trun t_init l) as [st1|] eqn:E1; [|discriminate].
  apply Forall_app in F. destruct F as [F1 F2]. inversion F2 as [|? ? T _]; subst. cbn [snd] in T.
  cbn [trun] in E. destruct (tstep st1 (p, t)) as [st2|] eqn:S; [|discriminate]. injection E as ->.
  unfold tstep in S. destruct (nx (ts_m st1) t) as [y|] eqn:X; [|discriminate]. injection S as <-. cbn [ts_m] in *.
  assert (B : ts_m st1 < n_states) by (eapply trun_bound; [exact E1|exact zero_state|exact F1]).
  rewrite forallb_forall in O. specialize (O _ (pre_in _ _ _ B T X)). cbn [fst snd] in O. cbv zeta in O.
  rewrite rev_app_distr. cbn [rev app map snd].
  destruct (strip t ws) as [|w0 ws0] eqn:ES; [discriminate|].
  assert (exists w, In w (strip t ws) /\ fits w (map snd (rev l))) as (w & I & W).
  { rewrite ES. destruct (done (w0 :: ws0)) eqn:D.
    - unfold done in D. apply existsb_exists in D. destruct D as ([|d w] & I & D); [|discriminate]. exists []. split; [exact I|]. destruct (map snd (rev l)); exact Logic.I.
    - destruct (IH _ _ _ _ O E1 eq_refl F1) as (w & I & W). eauto. }
  apply strip_in in I. destruct I as (d & I & A). exists (d :: w). split; [exact I|]. cbn [fits]. auto.
Qed.

Definition T_C : list N := [4; 5; 6; 7; 8; 9; 10; 11; 12; 13; 14; 15].
Definition T_H : list N := [13; 14].
Definition T_hy : list N := [7; 8; 9; 10; 11; 12; 13; 14; 15].
Definition T_1 : list N := [4; 5; 6].
Definition T_v : list N := [1].
Definition T_ini : list N := [8; 9].
Definition T_med : list N := [7; 8; 9; 10; 11].
Definition sh_cvcc : list (list N) := [T_H; T_hy; T_med; T_1; T_v; T_C].
Definition sh_ccvc : list (list N) := [T_H; T_hy; T_1; T_v; T_ini; T_C].
Definition sh_cvc : list (list N) := [T_H; T_hy; T_1; T_v; T_C].
Lemma shapes4 : forallb (fun s => if at4 s then only 7 [sh_cvcc; sh_ccvc] s else true) (upto 737) = true.
Proof. vm_compute. reflexivity. Qed.
Lemma shapes3 : forallb (fun s => if at3 s then only 7 [sh_cvc] s else true) (upto 737) = true.
Proof. vm_compute. reflexivity. Qed.
Global Opaque only.

(* ---- the distance from the start ---- *)
(* state; letters since the last start and the one before it; flags of the scanner;
   whether the places are noted, and at the right distance from the last start (2) or
   the one before (3) or both (4) *)
Record bst : Set := B { b_m : N; b_k1 : N; b_k2 : N; b_inh : bool; b_ini : bool; b_held : bool; b_h3 : N; b_h4 : N }.
Definition b_init : bst := B 0 7 7 false true false 0 0.
Definition inc (k : N) : N := if k <? 7 then k + 1 else 7.
Definition rel (n k1 k2 : N) : N := 1 + bN (N.eqb k1 n) + 2 * bN (N.eqb k2 n).
Definition lose (h : N) : N := if N.eqb h 0 then 0 else 1.
Definition bstep (x : bst) (t : N) : option bst :=
  if tset t && b_held x then None else if tinh t && negb (b_held x) then None else
  match nx (b_m x) t with
  | None => None
  | Some m =>
      let inh := b_inh x || tinh t in
      let h3 := if at3 (b_m x) then rel 5 (b_k1 x) (b_k2 x) else b_h3 x in
      let h4 := if at4 (b_m x) then rel 6 (b_k1 x) (b_k2 x) else b_h4 x in
      let h := next_held (b_held x) t in
      if (tset t && negb inh) || b_ini x then Some (B m 1 (inc (b_k1 x)) inh false h (lose h3) (lose h4))
      else Some (B m (inc (b_k1 x)) (inc (b_k2 x)) inh false h h3 h4)
  end.
Definition beq (x y : bst) : bool :=
  if N.eqb (b_m x) (b_m y) then if N.eqb (b_k1 x) (b_k1 y) then if N.eqb (b_k2 x) (b_k2 y) then
  if beqb (b_inh x) (b_inh y) then if beqb (b_ini x) (b_ini y) then if beqb (b_held x) (b_held y) then if N.eqb (b_h3 x) (b_h3 y) then
  N.eqb (b_h4 x) (b_h4 y) else false else false else false else false else false else false else false.
Lemma beq_eq x y : beq x y = true -> x = y.
Proof.
  destruct x, y. unfold beq. cbn [b_m b_k1 b_k2 b_inh b_ini b_held b_h3 b_h4].
  repeat match goal with |- (if ?c then _ else _) = true -> _ => let H := fresh "H" in destruct c eqn:H; [|discriminate] end.
  intro Q. repeat match goal with H : beqb _ _ = true |- _ => apply beqb_eq in H | H : N.eqb _ _ = true |- _ => apply N.eqb_eq in H end.
  subst. reflexivity.
Qed.
Definition b_key (x : bst) : N := b_m x + 1024 * (b_k1 x + 8 * b_k2 x).
Definition b_reach := Eval vm_compute in reach beq b_key bstep b_init.
Lemma b_closed : closed_under beq b_key bstep (index b_key b_reach) b_reach = true.
Proof. vm_compute. reflexivity. Qed.
Definition b_good (x : bst) : bool :=
  let '(c, d) := category (exit_of (b_m x)) in
  match c with
  | W_FUIVLA3 => N.eqb (b_h4 x) (if d then 3 else 2)
  | W_FUIVLA3_CVC => N.eqb (b_h3 x) (if d then 3 else 2)
  | W_FUIVLA3X => negb (N.eqb (b_h4 x) 0)
  | W_FUIVLA3X_CVC => negb (N.eqb (b_h3 x) 0)
  | _ => true
  end.
Lemma b_all_good : forallb b_good b_reach = true.
Proof. vm_compute. reflexivity. Qed.
Lemma b_init_in : In b_init b_reach.
Proof.
  assert (existsb (beq b_init) b_reach = true) as H by (vm_compute; reflexivity).
  apply existsb_exists in H. destruct H as (y & I & E). apply beq_eq in E. now subst.
Qed.
Global Opaque b_reach.

(* what the noted place means *)
Definition noted (at_ : N -> bool) (n : nat) (h : N) (v : option nat) (l : list (nat * N)) (starts : list nat) : Prop :=
  h <> 0 -> exists la lb st, l = la ++ lb /\ trun t_init la = Some st /\ at_ (ts_m st) = true /\
    v = nth_error (rev (map fst la)) 1 /\
    (h = 2 -> hd_error starts = nth_error (rev (map fst la)) n) /\
    (h = 3 -> hd_error (tl starts) = nth_error (rev (map fst la)) n).
Definition since (k : N) (l : list (nat * N)) (q : option nat) : Prop :=
  k < 7 -> 1 <= k /\ q <> None /\ nth_error (rev (map fst l)) (N.to_nat (k - 1)) = q.
Record binv (l : list (nat * N)) (st : tst) (x : bst) : Prop := {
  v_run : trun t_init l = Some st; v_bound : ts_m st < n_states;
  v_m : b_m x = ts_m st; v_inh : b_inh x = ts_inh st; v_ini : b_ini x = ts_ini st;
  v_p1 : ts_p1 st = nth_error (rev (map fst l)) 0; v_p2 : ts_p2 st = nth_error (rev (map fst l)) 1;
  v_k1 : since (b_k1 x) l (hd_error (ts_starts st)); v_k2 : since (b_k2 x) l (hd_error (tl (ts_starts st)));
  v_h3 : noted at3 4 (b_h3 x) (ts_h3 st) l (ts_starts st); v_h4 : noted at4 5 (b_h4 x) (ts_h4 st) l (ts_starts st)
}.
Lemma binv_init : binv [] t_init b_init.
Proof.
  split; try reflexivity; try exact zero_state; cbn.
  - intro H. vm_compute in H. discriminate.
  - intro H. vm_compute in H. discriminate.
  - intro H. now destruct H.
  - intro H. now destruct H.
Qed.
Lemma since_more k l q x : since k l q -> since (inc k) (l ++ [x]) q.
Proof.
  intros H L. unfold inc in *. destruct (k <? 7) eqn:K; [|lia]. apply N.ltb_lt in K. destruct (H K) as (A & Q & E).
  split; [lia|]. split; [exact Q|]. rewrite map_app, rev_app_distr. cbn [map rev app].
  replace (N.to_nat (k + 1 - 1)) with (S (N.to_nat (k - 1))) by lia. exact E.
Qed.
Lemma noted_more at_ n h v l starts x : noted at_ n h v l starts -> noted at_ n h v (l ++ [x]) starts.
Proof. intros H N. destruct (H N) as (la & lb & st & -> & R). exists la, (lb ++ [x]), st. rewrite <- app_assoc. auto. Qed.
Lemma noted_lose at_ n h v l starts starts' : noted at_ n h v l starts -> noted at_ n (lose h) v l starts'.
Proof.
  intros H N. unfold lose in *. destruct (N.eqb_spec h 0) as [|Z]; [congruence|].
  destruct (H Z) as (la & lb & st & E & R & A & V & _). exists la, lb, st. repeat split; auto; discriminate.
Qed.
Lemma noted_now (at_ : N -> bool) n l st x : (5 <= n)%N -> n < 7 -> binv l st x -> at_ (ts_m st) = true ->
  noted at_ (N.to_nat (n - 1)) (rel n (b_k1 x) (b_k2 x)) (ts_p2 st) l (ts_starts st).
Proof.
  intros N5 N7 V A _. exists l, [], st. rewrite app_nil_r. split; [reflexivity|]. split; [apply V|]. split; [exact A|]. split; [apply V|].
  unfold rel. split; intro H.
  - destruct (N.eqb_spec (b_k1 x) n) as [E|]; [|destruct (N.eqb (b_k2 x) n); discriminate H].
    destruct (v_k1 _ _ _ V) as (_ & _ & Q); [lia|]. now rewrite E in Q.
  - destruct (N.eqb_spec (b_k2 x) n) as [E|]; [|destruct (N.eqb (b_k1 x) n); discriminate H].
    destruct (v_k2 _ _ _ V) as (_ & _ & Q); [lia|]. now rewrite E in Q.
Qed.
Lemma bstep_ok l st x p t st' : binv l st x -> tstep st (p, t) = Some st' -> t < 21 ->
  (tset t = true -> b_held x = false) -> (tinh t = true -> b_held x = true) ->
  exists x', bstep x t = Some x' /\ binv (l ++ [(p, t)]) st' x' /\ b_held x' = next_held (b_held x) t.
Proof.
  intros V E T H1 H2.
  assert (R : trun t_init (l ++ [(p, t)]) = Some st') by (rewrite trun_app, (v_run _ _ _ V); cbn [trun]; now rewrite E).
  unfold bstep. destruct (tset t) eqn:TS; [rewrite (H1 eq_refl)|]; cbn [andb].
  2: destruct (tinh t) eqn:TI; [rewrite (H2 eq_refl)|]; cbn [andb negb].
  all: unfold tstep in E; rewrite (v_m _ _ _ V), (v_inh _ _ _ V), (v_ini _ _ _ V); destruct (nx (ts_m st) t) as [m|] eqn:X; [|discriminate].
  1: destruct (tinh t) eqn:TI; [exfalso; unfold tset, tinh in *; apply andb_prop in TS, TI; rewrite !N.leb_le in *; lia|]; cbn [andb].
  all: pose proof (proj2 (nx_ok _ t (v_bound _ _ _ V) T) m X) as BM; destruct (at_ok _ (v_bound _ _ _ V)) as [A3 A4]; rewrite A3, A4 in E;
    rewrite ?TS, ?TI in E; cbn [andb negb] in E; rewrite ?andb_true_r, ?orb_false_r, ?orb_true_r in *; cbn [andb negb orb] in *.
  all: set (h3 := if at3 (ts_m st) then rel 5 (b_k1 x) (b_k2 x) else b_h3 x);
    set (h4 := if at4 (ts_m st) then rel 6 (b_k1 x) (b_k2 x) else b_h4 x).
  all: assert (N3 : noted at3 4 h3 (if at3 (ts_m st) then ts_p2 st else ts_h3 st) l (ts_starts st))
      by (subst h3; destruct (at3 (ts_m st)) eqn:Q; [exact (noted_now at3 5 l st x ltac:(lia) ltac:(lia) V Q)|apply V]);
    assert (N4 : noted at4 5 h4 (if at4 (ts_m st) then ts_p2 st else ts_h4 st) l (ts_starts st))
      by (subst h4; destruct (at4 (ts_m st)) eqn:Q; [exact (noted_now at4 6 l st x ltac:(lia) ltac:(lia) V Q)|apply V]).
  all: assert (P1 : Some p = nth_error (rev (map fst (l ++ [(p, t)]))) 0) by (rewrite map_app, rev_app_distr; reflexivity);
    assert (P2 : ts_p1 st = nth_error (rev (map fst (l ++ [(p, t)]))) 1) by (rewrite map_app, rev_app_distr; exact (v_p1 _ _ _ V)).
  all: assert (NEW : since 1 (l ++ [(p, t)]) (Some p)) by (intros _; split; [lia|]; split; [discriminate|]; now rewrite P1).
  all: match type of E with context [if ?c then _ else _] => destruct c eqn:C end; injection E as <-;
    (eexists; split; [reflexivity|]; split; [|reflexivity]);
    (split; cbn [b_m b_k1 b_k2 b_inh b_ini b_held b_h3 b_h4 ts_m ts_starts ts_cy ts_inh ts_ini ts_last ts_p1 ts_p2 ts_h3 ts_h4 hd_error tl];
      [exact R|exact BM|reflexivity|reflexivity|reflexivity|exact P1|exact P2| | | |]).
  all: try exact NEW; try (apply since_more; apply V); try (apply noted_more; eapply noted_lose; eassumption); try (apply noted_more; assumption).
Qed.
Lemma brun_ok l2 : forall l1 st x st', binv l1 st x -> trun st l2 = Some st' -> feasible (b_held x) (map snd l2) ->
  exists x', arun bstep x (map snd l2) = Some x' /\ binv (l1 ++ l2) st' x'.
Proof.
  induction l2 as [|[p t] l2 IH]; intros l1 st x st' V E F; cbn [trun map snd arun] in *.
  - injection E as <-. rewrite app_nil_r. eauto.
  - destruct (tstep st (p, t)) as [st1|] eqn:S; [|discriminate]. cbn [feasible] in F. destruct F as (T & F).
    assert (NZ : t <> 0) by (intros ->; unfold tstep in S; rewrite (nx_unk _ (v_bound _ _ _ V)) in S; discriminate).
    destruct (F NZ) as (H1 & H2 & F'). destruct (bstep_ok _ _ _ _ _ _ V S T H1 H2) as (x1 & B1 & V1 & HH).
    rewrite B1. destruct (IH _ _ _ _ V1 E) as (x' & A & V').
    { rewrite HH. unfold next_held. exact F'. }
    exists x'. split; [exact A|]. now rewrite <- app_assoc in V'.
Qed.
Lemma feasible_small l : forall st st' h, trun st l = Some st' -> ts_m st < n_states -> feasible h (map snd l) -> Forall (fun x => snd x < 21) l.
Proof.
  induction l as [|(p & t) l IH]; intros st st' h E B F; [constructor |]. cbn [map snd feasible] in F. destruct F as (T & F).
  cbn [trun] in E. destruct (tstep st (p, t)) as [s1|] eqn:S; [| discriminate]. constructor; [exact T |].
  unfold tstep in S. destruct (nx (ts_m st) t) as [y|] eqn:X; [| discriminate]. injection S as <-.
  assert (t <> 0) as N by (intros ->; rewrite (nx_unk _ B) in X; discriminate). destruct (F N) as (_ & _ & F').
  eapply IH; [exact E | cbn [ts_m]; exact (proj2 (nx_ok _ t B T) y X) | exact F'].
Qed.
(* the place noted for a stage-3 word *)
Lemma stage3_place l st : feasible false (map snd l) -> trun t_init l = Some st ->
  let '(c, d) := category (exit_of (ts_m st)) in
  let starts := if d : bool then tl (ts_starts st) else ts_starts st in
  (In c [W_FUIVLA3; W_FUIVLA3X] -> exists la lb s, l = la ++ lb /\ trun t_init la = Some s /\ at4 (ts_m s) = true /\
     ts_h4 st = nth_error (rev (map fst la)) 1 /\ (c = W_FUIVLA3 -> hd_error starts = nth_error (rev (map fst la)) 5)) /\
  (In c [W_FUIVLA3_CVC; W_FUIVLA3X_CVC] -> exists la lb s, l = la ++ lb /\ trun t_init la = Some s /\ at3 (ts_m s) = true /\
     ts_h3 st = nth_error (rev (map fst la)) 1 /\ (c = W_FUIVLA3_CVC -> hd_error starts = nth_error (rev (map fst la)) 4)).
Proof.
  intros F E. destruct (brun_ok l [] t_init b_init st binv_init E F) as (x & A & V). cbn [app] in V.
  pose proof (closed_run beq beq_eq b_key bstep b_reach b_closed (map snd l) b_init x b_init_in) as IN.
  assert (FS : Forall (fun t => t < 21) (map snd l)).
  { apply Forall_map. eapply feasible_small; [exact E|exact zero_state|exact F]. }
  specialize (IN FS A). pose proof b_all_good as G. rewrite forallb_forall in G. specialize (G x IN).
  unfold b_good in G. rewrite (v_m _ _ _ V) in G. destruct (category (exit_of (ts_m st))) as [c d]. cbn zeta.
  pose proof (v_h3 _ _ _ V) as H3. pose proof (v_h4 _ _ _ V) as H4.
  split; intro I; cbn [In] in I.
  - assert (NZ : b_h4 x <> 0).
    { destruct I as [<-|[<-|[]]]; [apply N.eqb_eq in G; rewrite G; now destruct d|apply negb_true_iff, N.eqb_neq in G; exact G]. }
    destruct (H4 NZ) as (la & lb & s & El & R & At & Vv & S1 & S2). exists la, lb, s. repeat split; auto.
    intros ->. apply N.eqb_eq in G. destruct d; auto.
  - assert (NZ : b_h3 x <> 0).
    { destruct I as [<-|[<-|[]]]; [apply N.eqb_eq in G; rewrite G; now destruct d|apply negb_true_iff, N.eqb_neq in G; exact G]. }
    destruct (H3 NZ) as (la & lb & s & El & R & At & Vv & S1 & S2). exists la, lb, s. repeat split; auto.
    intros ->. apply N.eqb_eq in G. destruct d; auto.
Qed.
