(* Gismu. *)
From Coq Require Import String Ascii List NArith Bool Arith Lia.
From Verif Require Import Base Arr DfaModel DfaTables MorfModel LujvoSpec MorfSpec MorfProofs MorfProofs2 MorfProofs3 MorfProofs4 MorfProofs5 MorfProofs6 MorfProofs7.
Import ListNotations.
Open Scope N_scope.
Open Scope list_scope.

(* ---- the shape of the tokens ---- *)
Definition qstep (q t : N) : N :=
  if N.eqb q 0 then (if tset t then (if N.eqb t 6 then 1 else 12) else 10)
  else if N.eqb q 1 then (if N.eqb t 1 then 2 else if among_n [8; 9] t then 6 else 10)
  else if N.eqb q 12 then (if N.eqb t 1 then 2 else 10)
  else if N.eqb q 2 then (if tset t then 3 else 10)
  else if N.eqb q 3 then (if among_n [7; 8; 9; 10; 11] t then 4 else 10)
  else if N.eqb q 4 then (if N.eqb t 1 then 5 else 10)
  else if N.eqb q 6 then (if N.eqb t 1 then 7 else 10)
  else if N.eqb q 7 then (if tset t then 8 else 10)
  else if N.eqb q 8 then (if N.eqb t 1 then 9 else 10)
  else 10.
Definition qacc (q : N) : bool := N.eqb q 5 || N.eqb q 9.
Definition qrun (q : N) (l : list N) : N := fold_left qstep l q.

Record gst : Set := G { g_m : N; g_held : bool; g_inh : bool; g_cnt : N; g_q : N }.
Definition gstep (x : gst) (t : N) : option gst :=
  if tset t && g_held x then None else if tinh t && negb (g_held x) then None else
  match nx (g_m x) t with
  | None => None
  | Some m =>
      let inh := g_inh x || tinh t in
      Some (G m (next_held (g_held x) t) inh
              (if (tset t && negb inh) || N.eqb (g_cnt x) 0 then N.min 3 (g_cnt x + 1) else g_cnt x)
              (qstep (g_q x) t))
  end.
Definition g_init : gst := G 0 false false 0 0.
Definition gst_eqb (x y : gst) : bool :=
  if N.eqb (g_m x) (g_m y) then if beqb (g_held x) (g_held y) then if beqb (g_inh x) (g_inh y) then
  if N.eqb (g_cnt x) (g_cnt y) then N.eqb (g_q x) (g_q y) else false else false else false else false.
Lemma gst_eqb_eq x y : gst_eqb x y = true -> x = y.
Proof.
  destruct x, y. unfold gst_eqb. cbn [g_m g_held g_inh g_cnt g_q].
  repeat match goal with |- (if ?c then _ else _) = true -> _ => let H := fresh "H" in destruct c eqn:H; [|discriminate] end.
  intro Q. repeat match goal with H : beqb _ _ = true |- _ => apply beqb_eq in H
    | H : N.eqb _ _ = true |- _ => apply N.eqb_eq in H end. subst. reflexivity.
Qed.
Definition g_key (x : gst) : N := g_m x + 1024 * (g_cnt x + 4 * (g_q x + 16 * (bN (g_inh x) + 2 * bN (g_held x)))).
Definition g_reach := Eval vm_compute in reach gst_eqb g_key gstep g_init.
Lemma g_closed : closed_under gst_eqb g_key gstep (index g_key g_reach) g_reach = true.
Proof. vm_compute. reflexivity. Qed.
Definition g_one (x : gst) : bool :=
  let r := exit_of (g_m x) in
  if N.eqb (g_cnt x) 1 then String.eqb r "R_GISMU_0" else if N.eqb (g_cnt x) 2 then String.eqb r "R_GISMU_1" else false.
Lemma g_all_good : forallb (fun x => Bool.eqb (g_one x) (qacc (g_q x))) g_reach = true.
Proof. vm_compute. reflexivity. Qed.
Lemma g_init_in : In g_init g_reach.
Proof. apply (mem_in _ gst_eqb gst_eqb_eq g_key). vm_compute. reflexivity. Qed.

Definition grel (q0 : N) (st : tst) (x : gst) : Prop :=
  g_m x = ts_m st /\ g_inh x = ts_inh st /\ ts_ini st = (N.eqb (g_cnt x) 0) /\ g_cnt x = N.min 3 (N.of_nat (length (ts_starts st))) /\ g_q x = q0.
Lemma gfollow : forall l st x st', grel (g_q x) st x -> ts_m st < n_states -> feasible (g_held x) (map snd l) -> trun st l = Some st' ->
  exists x', arun gstep x (map snd l) = Some x' /\ grel (qrun (g_q x) (map snd l)) st' x'.
Proof.
  induction l as [|[p t] l IH]; intros st x st' R Hm F E.
  - cbn in E. injection E as <-. exists x. auto.
  - cbn [map snd arun trun feasible] in *. rewrite tstep_after in E. destruct F as [Ht F].
    destruct (nx (ts_m st) t) as [m|] eqn:Em; [|discriminate].
    assert (Nt : t <> 0) by (intros ->; rewrite (nx_unk _ Hm) in Em; discriminate).
    destruct (F Nt) as (A & B & C). unfold gstep at 1.
    assert (tset t && g_held x = false) as -> by (destruct (tset t); [rewrite A; auto|reflexivity]).
    assert (tinh t && negb (g_held x) = false) as -> by (destruct (tinh t); [rewrite B; auto|reflexivity]).
    destruct R as (R1 & R2 & R3 & R4 & R5). rewrite R1, Em, R2. cbv beta iota zeta.
    match goal with |- context [arun gstep ?y _] => set (x1 := y) end.
    destruct (IH (after st p t m) x1 st') as (x' & E' & R').
    + unfold grel, x1, after. cbn [g_m g_inh g_cnt g_q ts_m ts_inh ts_ini ts_starts]. rewrite R3.
      split; [reflexivity|]. split; [reflexivity|].
      assert (L : g_cnt x = 0 -> ts_starts st = []).
      { intro Z. rewrite Z in R4. destruct (ts_starts st); [reflexivity|]. cbn [List.length] in R4. lia. }
      destruct ((tset t && negb (ts_inh st || tinh t)) || N.eqb (g_cnt x) 0) eqn:Q.
      * split; [symmetry; apply N.eqb_neq; lia|]. split; [|reflexivity]. cbn [List.length]. rewrite R4. lia.
      * apply orb_false_iff in Q. destruct Q as [_ Q]. split; [symmetry; exact Q|]. split; [exact R4|reflexivity].
    + cbn. exact (proj2 (nx_ok _ _ Hm Ht) _ Em).
    + unfold x1. cbn [g_held]. exact C.
    + exact E.
    + exists x'. split; [exact E'|exact R'].
Qed.

Lemma tks_toks w : map snd (toks_of w) = tks f_init (letters_of w).
Proof.
  unfold toks_of. rewrite ptoks_tks, letters_fst, letters_snd.
  assert (K : forall (a : list nat) (b : list N), length a = length b -> map snd (combine a b) = b).
  { induction a as [|x a IH]; intros [|y b] H; try discriminate; [reflexivity|]. cbn. f_equal. apply IH. now injection H. }
  apply K. now rewrite places_length, tks_length.
Qed.
Lemma gismu_tokens w st : trun t_init (toks_of w) = Some st ->
  (qacc (qrun 0 (tks f_init (letters_of w))) = true <->
   (exit_of (ts_m st) = "R_GISMU_0"%string /\ length (ts_starts st) = 1%nat)
   \/ (exit_of (ts_m st) = "R_GISMU_1"%string /\ length (ts_starts st) = 2%nat)).
Proof.
  intro E. destruct (gfollow (toks_of w) t_init g_init st) as (x & Ex & R);
    [repeat split|exact zero_state|exact (feas w)|exact E|].
  pose proof (closed_run gst_eqb gst_eqb_eq g_key gstep g_reach g_closed _ _ x g_init_in
    (trun_lt _ t_init st false zero_state (feas w) E) Ex) as K.
  pose proof g_all_good as Gd. rewrite forallb_forall in Gd. specialize (Gd x K). apply Bool.eqb_prop in Gd.
  rewrite tks_toks in R. destruct R as (R1 & _ & _ & R4 & R5). cbn [g_q g_init] in R5. rewrite <- R5, <- Gd. unfold g_one. rewrite R1.
  destruct (N.eqb_spec (g_cnt x) 1) as [C1|C1].
  - assert (length (ts_starts st) = 1%nat) by lia. rewrite String.eqb_eq. split; [auto|]. intros [[A _]|[_ B]]; [exact A|lia].
  - destruct (N.eqb_spec (g_cnt x) 2) as [C2|C2].
    + assert (length (ts_starts st) = 2%nat) by lia. rewrite String.eqb_eq. split; [auto|]. intros [[_ B]|[A _]]; [lia|exact A].
    + split; [discriminate|]. intros [[_ B]|[_ B]]; lia.
Qed.
(* a word of that shape is scanned to its end *)
Definition shapes : list (list N) :=
  flat_map (fun c1 => flat_map (fun c2 => map (fun cc => [c1; 1; c2; cc; 1]) [7; 8; 9; 10; 11] ++ map (fun cc => [6; cc; 1; c2; 1]) [8; 9]) [4; 5; 6]) [4; 5; 6].
Lemma shapes_run : forallb (fun l => match nrun (Some 0) l with Some _ => true | None => false end) shapes = true.
Proof. vm_compute. reflexivity. Qed.
Lemma tset_in t : tset t = true -> In t [4; 5; 6].
Proof. unfold tset. intro H. apply andb_prop in H. destruct H as [A B]. apply N.leb_le in A, B.
  assert (t = 4 \/ t = 5 \/ t = 6) as [-> | [-> | ->]] by lia; cbn; auto. Qed.
Lemma q10 l : qrun 10 l = 10.
Proof. induction l as [|t l IH]; [reflexivity|exact IH]. Qed.
Lemma qrun_end q l : q = 5 \/ q = 9 -> qacc (qrun q l) = true -> l = [].
Proof.
  intros Hq H. destruct l as [|t l]; [reflexivity|]. cbn [qrun fold_left] in H. fold (qrun (qstep q t) l) in H.
  assert (qstep q t = 10) as E by (destruct Hq as [-> | ->]; reflexivity). rewrite E, q10 in H. discriminate.
Qed.
Lemma qacc_shape l : qacc (qrun 0 l) = true ->
  (exists c1 c2 cc, l = [c1; 1; c2; cc; 1] /\ tset c1 = true /\ tset c2 = true /\ among_n [7; 8; 9; 10; 11] cc = true)
  \/ (exists cc c2, l = [6; cc; 1; c2; 1] /\ tset c2 = true /\ among_n [8; 9] cc = true).
Proof.
  intro H.
  destruct l as [|c1 l]; [discriminate|]. change (qacc (qrun (if tset c1 then (if N.eqb c1 6 then 1 else 12) else 10) l) = true) in H.
  destruct (tset c1) eqn:T1; [|rewrite q10 in H; discriminate].
  assert (CVCCV : forall l, qacc (qrun 2 l) = true -> exists c2 cc, l = [c2; cc; 1] /\ tset c2 = true /\ among_n [7; 8; 9; 10; 11] cc = true).
  { clear l H. intros l H. destruct l as [|c2 l]; [discriminate|]. change (qacc (qrun (if tset c2 then 3 else 10) l) = true) in H.
    destruct (tset c2) eqn:T2; [|rewrite q10 in H; discriminate].
    destruct l as [|cc l]; [discriminate|]. change (qacc (qrun (if among_n [7; 8; 9; 10; 11] cc then 4 else 10) l) = true) in H.
    destruct (among_n [7; 8; 9; 10; 11] cc) eqn:T3; [|rewrite q10 in H; discriminate].
    destruct l as [|t l]; [discriminate|]. change (qacc (qrun (if N.eqb t 1 then 5 else 10) l) = true) in H.
    destruct (N.eqb_spec t 1) as [->|]; [|rewrite q10 in H; discriminate].
    apply qrun_end in H; [|auto]. subst l. exists c2, cc. auto. }
  destruct (N.eqb_spec c1 6) as [->|N1].
  2:{ destruct l as [|t2 l]; [discriminate|]. change (qacc (qrun (if N.eqb t2 1 then 2 else 10) l) = true) in H.
      destruct (N.eqb_spec t2 1) as [->|N2]; [|rewrite q10 in H; discriminate].
      destruct (CVCCV l H) as (c2 & cc & -> & A & B). left. exists c1, c2, cc. auto. }
  destruct l as [|t2 l]; [discriminate|]. change (qacc (qrun (if N.eqb t2 1 then 2 else if among_n [8; 9] t2 then 6 else 10) l) = true) in H.
  destruct (N.eqb_spec t2 1) as [->|N2].
  - destruct (CVCCV l H) as (c2 & cc & -> & A & B). left. exists 6, c2, cc. auto.
  - destruct (among_n [8; 9] t2) eqn:T2; [|rewrite q10 in H; discriminate].
    destruct l as [|t l]; [discriminate|]. change (qacc (qrun (if N.eqb t 1 then 7 else 10) l) = true) in H.
    destruct (N.eqb_spec t 1) as [->|]; [|rewrite q10 in H; discriminate].
    destruct l as [|c2 l]; [discriminate|]. change (qacc (qrun (if tset c2 then 8 else 10) l) = true) in H.
    destruct (tset c2) eqn:T3; [|rewrite q10 in H; discriminate].
    destruct l as [|t l]; [discriminate|]. change (qacc (qrun (if N.eqb t 1 then 9 else 10) l) = true) in H.
    destruct (N.eqb_spec t 1) as [->|]; [|rewrite q10 in H; discriminate].
    apply qrun_end in H; [|auto]. subst l. right. exists t2, c2. auto.
Qed.
Lemma among_n_in l t : among_n l t = true -> In t l.
Proof. unfold among_n. intro H. apply existsb_exists in H. destruct H as (x & Hx & E). apply N.eqb_eq in E. now subst. Qed.
Lemma shape_in l : qacc (qrun 0 l) = true -> In l shapes.
Proof.
  intro H. unfold shapes. destruct (qacc_shape l H) as [(c1 & c2 & cc & -> & A & B & C)|(cc & c2 & -> & B & C)].
  - apply tset_in in A, B; apply among_n_in in C; apply in_flat_map; exists c1; (split; [exact A|]); apply in_flat_map; exists c2; (split; [exact B|]);
    apply in_or_app; left; apply in_map_iff; exists cc; auto.
  - apply tset_in in B; apply among_n_in in C; apply in_flat_map; exists 6; (split; [cbn; auto|]); apply in_flat_map; exists c2; (split; [exact B|]);
    apply in_or_app; right; apply in_map_iff; exists cc; auto.
Qed.
Lemma shape_runs w : qacc (qrun 0 (tks f_init (letters_of w))) = true -> exists st, trun t_init (toks_of w) = Some st.
Proof.
  intro H. pose proof (shape_in _ H) as K. pose proof shapes_run as X. rewrite forallb_forall in X. specialize (X _ K).
  rewrite <- tks_toks in X, H. destruct (toks_of w) as [|[p t] l]; [discriminate|].
  destruct (nrun (Some 0) (map snd ((p, t) :: l))) as [m|] eqn:E; [|discriminate].
  destruct (trun_init p t l m E) as (st & Es & _). eauto.
Qed.
