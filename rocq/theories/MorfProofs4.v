(* Following a scan together with the scans of its pieces. *)
From Coq Require Import String Ascii List NArith Bool Arith Lia.
From Verif Require Import Base Arr DfaModel DfaTables MorfModel MorfProofs MorfProofs2 MorfProofs3.
Import ListNotations.
Open Scope N_scope.
Open Scope list_scope.

Fixpoint nrun (o : option N) (l : list N) : option N := match l with [] => o | t :: l => nrun (nxo o t) l end.
Lemma nrun_app l1 : forall o l2, nrun o (l1 ++ l2) = nrun (nrun o l1) l2.
Proof. induction l1 as [|t l1 IH]; intros o l2; [reflexivity|]. cbn [app nrun]. apply IH. Qed.
Lemma nrun_none l : nrun None l = None.
Proof. induction l; [reflexivity|assumption]. Qed.
Definition alone (g : list (nat * N)) : option N := nrun (Some 0) (map snd g).
Lemma alone_snoc g p t : alone (g ++ [(p, t)]) = nxo (alone g) t.
Proof. unfold alone. rewrite map_app, nrun_app. reflexivity. Qed.

(* starts recorded after the first *)
Fixpoint recs (inh : bool) (l : list (nat * N)) : list nat :=
  match l with
  | [] => []
  | (p, t) :: l => let inh := inh || tinh t in if tset t && negb inh then p :: recs inh l else recs inh l
  end.
Definition inhs (inh : bool) (l : list (nat * N)) : bool := fold_left (fun b x => b || tinh (snd x)) l inh.
Lemma recs_app l1 : forall b l2, recs b (l1 ++ l2) = recs b l1 ++ recs (inhs b l1) l2.
Proof.
  induction l1 as [|[p t] l1 IH]; intros b l2; [reflexivity|]. cbn [app recs]. unfold inhs. cbn [fold_left snd].
  destruct (tset t && negb (b || tinh t)); rewrite IH; reflexivity.
Qed.
Lemma inhs_app b l1 l2 : inhs b (l1 ++ l2) = inhs (inhs b l1) l2.
Proof. unfold inhs. apply fold_left_app. Qed.

(* a group: its first position, no further start in it *)
Definition group (s : nat) (g : list (nat * N)) : Prop :=
  exists t l, g = (s, t) :: l /\ tinh t = false /\ recs false l = [].
Inductive CY : N -> list (nat * N) -> list nat -> Prop :=
| cy_1 p t : tset t = true -> CY 1 [(p, t)] []
| cy_2 q g c p : q = 1 \/ q = 3 -> CY q g c -> CY 2 (g ++ [(p, 3)]) c
| cy_3 g c p t : CY 2 g c -> tinh t = true -> CY 3 (g ++ [(p, t)]) (p :: c).

Definition nonempty {A} (l : list A) : bool := match l with [] => false | _ => true end.
Definition first_set (g : list (nat * N)) : Prop := match g with (_, t) :: _ => tset t = true | [] => False end.
Record inv (toks : list (nat * N)) (gs : list (list (nat * N))) (st : tst) (x : ast) : Prop := {
  i_toks : toks = concat (rev gs);
  i_starts : Forall2 group (ts_starts st) gs;
  i_sets : Forall first_set (removelast gs);
  i_m : x_m x = ts_m st; i_ms : ts_m st < n_states;
  i_inh : x_inh x = ts_inh st; i_ini : x_ini x = ts_ini st; i_frz : x_frz x = is_frz (ts_last st);
  i_gs : ts_ini st = negb (nonempty gs);
  i_inh' : ts_inh st = match gs with g :: _ => inhs false g | [] => false end;
  i_inhs : Forall (fun g => inhs false g = false) (tl gs);
  i_a : x_a x = match gs with g :: _ => alone g | [] => None end;
  i_b : x_b x = match gs with g :: h :: _ => alone (h ++ g) | _ => None end;
  i_ok : x_ok x = forallb (fun g => is_cm (alone g)) (tl gs);
  i_ok2 : x_ok2 x = forallb (fun g => is_cm (alone g)) (tl (tl gs));
  i_one : x_one x = match gs with [_] => true | _ => false end;
  i_cy : x_cy x = nonempty (ts_cy st);
  i_q : x_cyold x = false -> x_q x <> 0 -> exists g gr, gs = g :: gr /\ CY (x_q x) g (ts_cy st);
  i_main : x_m x = match nrun (Some 0) (map snd toks) with Some m => m | None => x_m x end }.

Lemma inv_init : inv [] [] t_init a_init.
Proof.
  constructor; try exact zero_state; try (cbn; congruence); try reflexivity; constructor.
Qed.

Lemma tset_tinh t : tset t = true -> tinh t = false.
Proof.
  unfold tset, tinh. intro H. apply andb_prop in H. destruct H as [A B]. apply N.leb_le in A, B.
  apply andb_false_iff. left. apply N.leb_gt. lia.
Qed.
Lemma forallb_tl {A} (f : A -> bool) a l : forallb f (a :: l) = forallb f l && f a.
Proof. cbn. apply andb_comm. Qed.


Lemma inv_step toks gs st x p t st' :
  inv toks gs st x -> t <> 0 -> t < 21 -> (tset t = true -> x_held x = false) -> (tinh t = true -> x_held x = true) ->
  (ts_ini st = true -> x_held x = false) ->
  tstep st (p, t) = Some st' ->
  exists x' gs', astep x t = Some x' /\ inv (toks ++ [(p, t)]) gs' st' x'
    /\ x_held x' = next_held (x_held x) t /\ ts_ini st' = false.
Proof.
  intros I Nt Ht Hs Hi Hini E. unfold tstep in E. destruct (nx (ts_m st) t) as [m|] eqn:Em; [|discriminate].
  injection E as <-. pose proof (i_m _ _ _ _ I) as Im. unfold astep.
  assert (tset t && x_held x = false) as ->.
  { destruct (tset t); [|reflexivity]. rewrite Hs; reflexivity. }
  assert (tinh t && negb (x_held x) = false) as ->.
  { destruct (tinh t); [|reflexivity]. rewrite Hi; reflexivity. }
  rewrite Im, Em. rewrite (i_inh _ _ _ _ I), (i_ini _ _ _ _ I).
  pose proof (nx_ok (ts_m st) t (i_ms _ _ _ _ I) Ht) as [_ Bm]. specialize (Bm m Em).
  destruct ((tset t && negb (ts_inh st || tinh t)) || ts_ini st) eqn:New.
  - (* a new piece *)
    eexists. exists ([(p, t)] :: gs). split; [reflexivity|]. split; [|split; reflexivity].
    destruct I. assert (Cases : (ts_ini st = true /\ gs = []) \/ (ts_ini st = false /\ gs <> [] /\ tset t = true /\ ts_inh st = false)).
    { destruct (ts_ini st); destruct gs; cbn in i_gs0; try discriminate; [left; auto|right].
      rewrite orb_false_r in New. apply andb_prop in New. destruct New as [A B].
      split; [reflexivity|]. split; [discriminate|]. split; [exact A|]. destruct (ts_inh st); [discriminate|reflexivity]. }
    assert (Tinh : tinh t = false).
    { destruct Cases as [[C _]|(_ & _ & C & _)]; [|now apply tset_tinh].
      destruct (tinh t) eqn:Q; [|reflexivity]. rewrite Hi in Hini by reflexivity. specialize (Hini C). discriminate. }
    assert (Inh0 : ts_inh st = false).
    { destruct Cases as [[C ->]|(_ & _ & _ & C)]; [exact i_inh'0|exact C]. }
    constructor; cbn [ts_m ts_starts ts_cy ts_inh ts_ini ts_last x_m x_a x_b x_inh x_ini x_held x_frz x_ok x_ok2 x_one x_cy x_cyold x_q tl nonempty negb].
    + cbn [rev]. rewrite concat_app, <- i_toks0. cbn. reflexivity.
    + constructor; [|exact i_starts0]. exists t, []. auto.
    + destruct Cases as [[_ ->]|(_ & Ng & Ts & _)]; [constructor|].
      destruct gs; [contradiction|]. change (removelast ([(p, t)] :: l :: gs)) with ([(p, t)] :: removelast (l :: gs)).
      constructor; [exact Ts|exact i_sets0].
    + reflexivity.
    + exact Bm.
    + reflexivity.
    + reflexivity.
    + reflexivity.
    + reflexivity.
    + rewrite Inh0, Tinh. cbn. now rewrite Tinh.
    + destruct gs as [|g gs]; [constructor|]. constructor; [rewrite <- i_inh'0; exact Inh0|exact i_inhs0].
    + reflexivity.
    + destruct Cases as [[C ->]|(C & Ng & _)]; rewrite C; [reflexivity|].
      destruct gs as [|g gs]; [contradiction|]. rewrite i_a0. unfold alone at 2. rewrite map_app, nrun_app. reflexivity.
    + destruct Cases as [[C ->]|(C & Ng & _)]; rewrite C; [reflexivity|].
      destruct gs as [|g gs]; [contradiction|]. rewrite i_a0, i_ok0. cbn [tl]. now rewrite forallb_tl.
    + exact i_ok0.
    + destruct Cases as [[C ->]|(C & Ng & _)]; rewrite C; [reflexivity|]. destruct gs; [contradiction|reflexivity].
    + rewrite i_cy0, i_frz0. destruct (ts_last st), (tact t); cbn; rewrite ?orb_false_r, ?orb_true_r; reflexivity.
    + rewrite i_cy0, i_frz0. intros Q1 Q2. exists [(p, t)], gs. split; [reflexivity|].
      apply orb_false_iff in Q1. destruct Q1 as [Q1 Q3]. destruct (ts_cy st) eqn:Ecy; [|discriminate].
      destruct (tset t) eqn:Ts; [|contradiction].
      assert (match ts_last st, tact t with AC_FRZ, AC_SFT => [p] | _, _ => [] end = @nil nat) as ->.
      { destruct (ts_last st), (tact t); try reflexivity. discriminate. }
      now constructor.
    + rewrite map_app, nrun_app. cbn [map snd nrun]. destruct (nrun (Some 0) (map snd toks)) as [m0|] eqn:Q.
      * cbn [nxo]. rewrite Im in i_main0. rewrite <- i_main0, Em. reflexivity.
      * reflexivity.
  - (* the same piece *)
    apply orb_false_iff in New. destruct New as [New Ini].
    destruct I. rewrite Ini in i_gs0. destruct gs as [|g gs]; [discriminate|].
    eexists. exists ((g ++ [(p, t)]) :: gs). split; [reflexivity|]. split; [|split; reflexivity].
    constructor; cbn [ts_m ts_starts ts_cy ts_inh ts_ini ts_last x_m x_a x_b x_inh x_ini x_held x_frz x_ok x_ok2 x_one x_cy x_cyold x_q tl nonempty negb].
    + cbn [rev]. cbn [rev] in i_toks0. rewrite i_toks0, !concat_app. cbn. rewrite !app_nil_r, app_assoc. reflexivity.
    + inversion i_starts0 as [|s ? ss ? G G2]; subst. constructor; [|exact G2].
      destruct G as (t0 & l & -> & A & B). exists t0, (l ++ [(p, t)]). split; [reflexivity|]. split; [exact A|].
      rewrite recs_app, B. cbn [app recs].
      assert (inhs false l = ts_inh st) as ->.
      { rewrite i_inh'0. unfold inhs. cbn [fold_left snd]. rewrite A. reflexivity. }
      rewrite New. reflexivity.
    + destruct gs as [|h gs]; [constructor|]. cbn [removelast] in *. inversion i_sets0 as [|? ? F R]; subst. constructor; [|exact R].
      destruct g as [|[p0 t0] g]; [destruct F|exact F].
    + reflexivity.
    + exact Bm.
    + reflexivity.
    + reflexivity.
    + reflexivity.
    + reflexivity.
    + rewrite inhs_app, <- i_inh'0. reflexivity.
    + exact i_inhs0.
    + rewrite i_a0, alone_snoc. reflexivity.
    + rewrite i_b0. destruct gs as [|h gs]; [reflexivity|]. rewrite app_assoc, alone_snoc. reflexivity.
    + exact i_ok0.
    + exact i_ok3.
    + exact i_one0.
    + rewrite i_cy0, i_frz0. destruct (ts_last st), (tact t); cbn; rewrite ?orb_false_r, ?orb_true_r; reflexivity.
    + intros Q1 Q2. specialize (i_q0 Q1). unfold next_q in *. exists (g ++ [(p, t)]), gs. split; [reflexivity|].
      destruct (N.eqb_spec (x_q x) 1) as [q1|q1]; cbn [andb] in *.
      { destruct (N.eqb_spec t 3) as [->|t3].
        - destruct (i_q0 ltac:(lia)) as (g' & gr & Eg & K). injection Eg as <- <-.
          assert (match ts_last st, tact 3 with AC_FRZ, AC_SFT => p :: ts_cy st | _, _ => ts_cy st end = ts_cy st) as ->
            by (destruct (ts_last st); reflexivity).
          apply (cy_2 (x_q x)); [left; exact q1|exact K].
        - rewrite q1 in Q2. cbn in Q2. contradiction. }
      destruct (N.eqb_spec (x_q x) 2) as [q2|q2]; cbn [andb] in *.
      { destruct (tinh t) eqn:Ti; cbn [andb] in *; [|rewrite q2 in Q2; cbn in Q2; contradiction].
        destruct (x_frz x && is_sft (tact t)) eqn:Cy; [|rewrite q2 in Q2; cbn in Q2; contradiction].
        destruct (i_q0 ltac:(lia)) as (g' & gr & Eg & K). injection Eg as <- <-.
        apply andb_prop in Cy. destruct Cy as [F S]. rewrite i_frz0 in F.
        destruct (ts_last st); try discriminate. destruct (tact t); try discriminate.
        rewrite q2 in K. apply cy_3; [exact K|exact Ti]. }
      destruct (N.eqb_spec (x_q x) 3) as [q3|q3]; cbn [andb] in *; [|contradiction].
      destruct (N.eqb_spec t 3) as [->|t3]; [|contradiction].
      destruct (i_q0 ltac:(lia)) as (g' & gr & Eg & K). injection Eg as <- <-.
      assert (match ts_last st, tact 3 with AC_FRZ, AC_SFT => p :: ts_cy st | _, _ => ts_cy st end = ts_cy st) as ->
        by (destruct (ts_last st); reflexivity).
      apply (cy_2 (x_q x)); [right; exact q3|exact K].
    + rewrite map_app, nrun_app. cbn [map snd nrun]. destruct (nrun (Some 0) (map snd toks)) as [m0|] eqn:Q.
      * cbn [nxo]. rewrite Im in i_main0. rewrite <- i_main0, Em. reflexivity.
      * reflexivity.
Qed.

Lemma trun_app l1 : forall st l2, trun st (l1 ++ l2) = match trun st l1 with Some st => trun st l2 | None => None end.
Proof. induction l1 as [|x l1 IH]; intros st l2; [reflexivity|]. cbn [app trun]. destruct (tstep st x); auto. Qed.

Lemma follow : forall rest toks gs st x st', inv toks gs st x -> feasible (x_held x) (map snd rest) ->
  (ts_ini st = true -> x_held x = false) -> trun st rest = Some st' ->
  exists x' gs', arun astep x (map snd rest) = Some x' /\ inv (toks ++ rest) gs' st' x'.
Proof.
  induction rest as [|[p t] rest IH]; intros toks gs st x st' I F Hini E.
  - cbn in E. injection E as <-. exists x, gs. rewrite app_nil_r. split; [reflexivity|exact I].
  - cbn [trun map snd feasible arun] in *. destruct F as [Ht F].
    destruct (tstep st (p, t)) as [st1|] eqn:E1; [|discriminate].
    assert (Nt : t <> 0).
    { intros ->. unfold tstep in E1. rewrite (nx_unk _ (i_ms _ _ _ _ I)) in E1. discriminate. }
    destruct (F Nt) as (A & B & C).
    destruct (inv_step _ _ _ _ p t st1 I Nt Ht A B Hini E1) as (x1 & gs1 & Ex & I1 & Hh & Hi).
    rewrite Ex. replace (toks ++ (p, t) :: rest) with ((toks ++ [(p, t)]) ++ rest) by (rewrite <- app_assoc; reflexivity).
    apply (IH _ _ _ _ _ I1); [|rewrite Hi; discriminate|exact E].
    rewrite Hh. unfold next_held. exact C.
Qed.


Lemma a_init_in : In a_init a_reach.
Proof. apply (mem_in _ ast_eqb ast_eqb_eq a_key). vm_compute. reflexivity. Qed.

Lemma trun_lt : forall l st st' h, ts_m st < n_states -> feasible h (map snd l) -> trun st l = Some st' -> Forall (fun t => t < 21) (map snd l).
Proof.
  induction l as [|[p t] l IH]; intros st st' h Hm F E; [constructor|]. cbn [map snd feasible trun] in *.
  destruct F as [Ht F]. destruct (tstep st (p, t)) as [st1|] eqn:E1; [|discriminate].
  unfold tstep in E1. destruct (nx (ts_m st) t) as [m|] eqn:Em; [|discriminate].
  assert (Nt : t <> 0) by (intros ->; rewrite (nx_unk _ Hm) in Em; discriminate).
  injection E1 as <-. constructor; [exact Ht|]. destruct (F Nt) as (_ & _ & C).
  refine (IH _ st' _ _ C E). cbn [ts_m]. exact (proj2 (nx_ok _ _ Hm Ht) _ Em).
Qed.

Lemma feas w : feasible false (map snd (toks_of w)).
Proof. exact (ptoks_feasible _ f_init finv_init (letters_no_comma w 0)). Qed.

(* every scan of a word has a followed scan, which is good *)
Lemma followed w st : trun t_init (toks_of w) = Some st ->
  exists x gs, inv (toks_of w) gs st x /\ a_good x = true.
Proof.
  intro E. destruct (follow (toks_of w) [] [] t_init a_init st inv_init (feas w) (fun _ => eq_refl) E) as (x & gs & Ex & I).
  exists x, gs. split; [exact I|].
  pose proof (closed_run ast_eqb ast_eqb_eq a_key astep a_reach a_closed _ _ x a_init_in
    (trun_lt _ t_init st false zero_state (feas w) E) Ex) as K.
  pose proof a_all_good as G. rewrite forallb_forall in G. exact (G x K).
Qed.
