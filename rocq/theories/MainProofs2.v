From Coq Require Import String Ascii List NArith ZArith Bool Lia.
From Verif Require Import Base MainModel MainSpec.
Import ListNotations.
Open Scope list_scope.

Lemma steps_app w : forall l1 l2 k, steps w l1 (steps w l2 k) = steps w (l1 ++ l2) k.
Proof. induction l1 as [|a l1 IH]; intros l2 k; cbn [steps app]; [reflexivity|]. rewrite IH. reflexivity. Qed.

Lemma steps_cut w : forall l st, exists l1 l2, l = l1 ++ l2 /\ fst (steps w l ([], st)) = l1 /\
  ((l2 = [] /\ calm w l /\ snd (steps w l ([], st)) = st) \/
   (exists m a, l1 = m ++ [a] /\ calm w m /\ crashes w a = true /\ snd (steps w l ([], st)) = 1%N)).
Proof.
  induction l as [|a l IH]; intro st; cbn [steps].
  - exists [], []. repeat split. left. repeat split. intros a [].
  - unfold step. destruct (crashes w a) eqn:Ec.
    + exists [a], l. repeat split. right. exists [], a. repeat split; [intros b []|exact Ec].
    + destruct (IH st) as (l1 & l2 & El & Ef & Hc). exists (a :: l1), l2. cbn [fst snd]. rewrite Ef. split; [cbn; congruence|].
      split; [reflexivity|]. destruct Hc as [(E2 & Hc & Hs)|(m & b & E1 & Hm & Hb & Hs)].
      * left. repeat split; [exact E2| |exact Hs]. intros b [<-|Hb]; [exact Ec|apply Hc; exact Hb].
      * right. exists (a :: m), b. repeat split; [cbn; congruence| |exact Hb|exact Hs].
        intros c [<-|Hin]; [exact Ec|apply Hm; exact Hin].
Qed.

Definition fixed (o : options) : options := if require_elidables o && show_elisions o then set_se false o else o.
Definition plan (o : options) (w : world) : list action * N :=
  let o' := fixed o in
  let full := require_elidables o in
  let l0 := when (require_elidables o && show_elisions o) [A_incompatible] in
  if bad_reading w then (l0 ++ [A_read (filename o)], 3%N)
  else if bad_preprocess w then (l0 ++ [A_read (filename o)] ++ (when (token_lists o) [A_tokens_before] ++ [A_preprocess]), 3%N)
  else
    (l0 ++ [A_read (filename o)] ++ (when (token_lists o) [A_tokens_before] ++ [A_preprocess]) ++ (when (token_lists o) [A_tokens_after] ++ [A_parse full]) ++
     (when (negb (parse_fails w full) && negb (syntax_error w full)) (produce o) ++ when (show_memory o) [A_memory]),
     if parse_fails w full then 1%N else if syntax_error w full then 2%N else 0%N).
Lemma fixed_file o : filename (fixed o) = filename o. Proof. unfold fixed. destruct (_ && _); reflexivity. Qed.
Lemma fixed_re o : require_elidables (fixed o) = require_elidables o. Proof. unfold fixed. destruct (_ && _); reflexivity. Qed.
Lemma fixed_tl o : token_lists (fixed o) = token_lists o. Proof. unfold fixed. destruct (_ && _); reflexivity. Qed.
Lemma fixed_mem o : show_memory (fixed o) = show_memory o. Proof. unfold fixed. destruct (_ && _); reflexivity. Qed.
Lemma fixed_produce o : produce (fixed o) = produce o. Proof. unfold fixed. destruct (_ && _); reflexivity. Qed.

Lemma steps_nil w k : steps w [] k = k. Proof. reflexivity. Qed.
Lemma run_plan o w : opened o w -> run o w = steps w (fst (plan o w)) ([], snd (plan o w)).
Proof.
  intro Ho. unfold run. fold (fixed o). rewrite fixed_file, fixed_re, fixed_tl, fixed_mem, fixed_produce.
  assert (E' : forall x : list action * N, match filename o with Some f => if opens w f then x else ([A_no_file f], 1%N) | None => x end = x).
  { intro x. destruct (filename o) as [f|] eqn:Ef; [|reflexivity]. rewrite (Ho f Ef). reflexivity. }
  rewrite E'. unfold plan. destruct (bad_reading w).
  - cbn [fst snd]. rewrite steps_app. reflexivity.
  - destruct (bad_preprocess w); cbn [fst snd]; rewrite !steps_app; rewrite <- !app_assoc; reflexivity.
Qed.

(* the status *)
Lemma status_calm o w tr st : opened o w -> run o w = (tr, st) -> calm w tr -> tr = fst (plan o w) /\ st = snd (plan o w).
Proof.
  intros Ho Hr Hc. rewrite (run_plan o w Ho) in Hr.
  destruct (steps_cut w (fst (plan o w)) (snd (plan o w))) as (l1 & l2 & El & Ef & Hd).
  rewrite Hr in *. cbn [fst snd] in *. destruct Hd as [(E2 & _ & Hs)|(m & a & E1 & _ & Ha & _)].
  - subst l2. rewrite app_nil_r in El. split; congruence.
  - exfalso. assert (Hin : In a tr) by (rewrite Ef, E1; apply in_or_app; right; left; reflexivity).
    specialize (Hc a Hin). congruence.
Qed.
Lemma main_status o w tr st : opened o w -> run o w = (tr, st) -> calm w tr ->
  let full := require_elidables o in
  (st = 3%N <-> bad_words w) /\
  (st = 1%N <-> ~ bad_words w /\ parse_fails w full = true) /\
  (st = 2%N <-> ~ bad_words w /\ parse_fails w full = false /\ syntax_error w full = true) /\
  (st = 0%N <-> ~ bad_words w /\ parse_fails w full = false /\ syntax_error w full = false).
Proof.
  intros Ho Hr Hc full. destruct (status_calm o w tr st Ho Hr Hc) as (_ & ->).
  unfold plan, bad_words. fold full.
  destruct (bad_reading w); cbn [snd]; [intuition (try discriminate; congruence)|].
  destruct (bad_preprocess w); cbn [snd]; [intuition (try discriminate; congruence)|].
  destruct (parse_fails w full); [intuition (try discriminate; congruence)|].
  destruct (syntax_error w full); intuition (try discriminate; congruence).
Qed.
Lemma main_crash o w tr st a : opened o w -> run o w = (tr, st) -> In a tr -> crashes w a = true ->
  st = 1%N /\ exists m, tr = m ++ [a].
Proof.
  intros Ho Hr Hin Hcr. rewrite (run_plan o w Ho) in Hr.
  destruct (steps_cut w (fst (plan o w)) (snd (plan o w))) as (l1 & l2 & El & Ef & Hd).
  rewrite Hr in *. cbn [fst snd] in *. destruct Hd as [(E2 & Hc & Hs)|(m & b & E1 & Hm & Hb & Hs)].
  - exfalso. subst l2. rewrite app_nil_r in El. rewrite El, <- Ef in Hc. specialize (Hc a Hin). congruence.
  - split; [exact Hs|]. exists m. rewrite Ef, E1 in Hin |- *. apply in_app_or in Hin. destruct Hin as [Hin|[->|[]]]; [|reflexivity].
    specialize (Hm a Hin). congruence.
Qed.
Lemma main_unopened o w f : filename o = Some f -> opens w f = false -> crashes w A_incompatible = false ->
  snd (run o w) = 1%N /\ forall s, ~ In (A_read s) (fst (run o w)).
Proof.
  intros Ef Eo Ec. unfold run. fold (fixed o). rewrite fixed_file, Ef, Eo.
  destruct (require_elidables o && show_elisions o); cbn [when steps step]; unfold step; rewrite ?Ec; cbn; (split; [reflexivity|]); intros s Hs; intuition discriminate.
Qed.

Lemma filter_prefix {A} (f : A -> bool) l1 l2 : filter f l1 = [] -> filter f (l1 ++ l2) = filter f l2.
Proof. intro H. rewrite filter_app, H. reflexivity. Qed.
Lemma produce_prints o : exists a, chosen o a /\ filter prints (produce o) = [a].
Proof.
  unfold produce. destruct (show_tree o) eqn:E1.
  - exists A_tree. split; [constructor; exact E1|]. destruct (full_tree o); reflexivity.
  - destruct (latex o) eqn:E2; [exists (A_latex (block o)); split; [constructor; assumption|reflexivity]|].
    destruct (textout o) eqn:E3; [exists (A_text (block o)); split; [constructor; assumption|reflexivity]|].
    destruct (htmlout o) eqn:E4; [exists A_html; split; [constructor; assumption|reflexivity]|].
    exists (A_brackets (gloss o)). split; [constructor; assumption|reflexivity].
Qed.
Lemma chosen_det o a b : chosen o a -> chosen o b -> a = b.
Proof. intros H1 H2. inversion H1; inversion H2; subst; congruence. Qed.
Lemma plan_prints o w : (snd (plan o w) = 0%N -> exists a, chosen o a /\ filter prints (fst (plan o w)) = [a]) /\
  (snd (plan o w) <> 0%N -> filter prints (fst (plan o w)) = []).
Proof.
  unfold plan. set (full := require_elidables o).
  assert (E0 : forall b l, filter prints (when b [A_incompatible] ++ l) = filter prints l) by (intros []; reflexivity).
  assert (E1 : forall b l, filter prints ((when b [A_tokens_before] ++ [A_preprocess]) ++ l) = filter prints l) by (intros []; reflexivity).
  assert (E2 : forall b l, filter prints ((when b [A_tokens_after] ++ [A_parse full]) ++ l) = filter prints l) by (intros []; reflexivity).
  destruct (bad_reading w); cbn [fst snd].
  { split; [discriminate|]. intros _. rewrite E0. reflexivity. }
  destruct (bad_preprocess w); cbn [fst snd].
  { split; [discriminate|]. intros _. rewrite E0. cbn [app]. cbn [filter prints].
    rewrite <- (app_nil_r (when _ _ ++ _)), E1. reflexivity. }
  rewrite E0. change ([A_read (filename o)] ++ ?x) with (A_read (filename o) :: x). cbn [filter prints app].
  assert (Em : filter prints (when (show_memory o) [A_memory]) = []) by (destruct (show_memory o); reflexivity).
  destruct (parse_fails w full), (syntax_error w full); cbn [negb andb when app]; (split; [try discriminate|intro Hn; try (exfalso; apply Hn; reflexivity)]).
  all: try (rewrite E1, E2; exact Em).
  intros _. destruct (produce_prints o) as (a & Ha & Hf). exists a. split; [exact Ha|].
  rewrite E1, E2, filter_app, Hf, Em. reflexivity.
Qed.
Lemma main_prints o w tr st : opened o w -> run o w = (tr, st) -> calm w tr ->
  (st = 0%N -> exists a, chosen o a /\ filter prints tr = [a]) /\ (st <> 0%N -> filter prints tr = []).
Proof.
  intros Ho Hr Hc. destruct (status_calm o w tr st Ho Hr Hc) as (-> & ->). apply plan_prints.
Qed.

(* the order *)
Definition ordered (done : list action) (l : list action) : Prop :=
  forall l1 a l2 b, l = l1 ++ a :: l2 -> needs a b -> exists c, In c (done ++ l1) /\ same_kind b c.
Lemma ordered_nil d : ordered d []. Proof. intros [|x l1] a l2 b E; discriminate. Qed.
Lemma ordered_cons d a l : (forall b, needs a b -> exists c, In c d /\ same_kind b c) -> ordered (d ++ [a]) l -> ordered d (a :: l).
Proof.
  intros Ha Hl [|x l1] y l2 b E Hn.
  - injection E as <- <-. destruct (Ha b Hn) as (c & Hc & Hk). exists c. rewrite app_nil_r. auto.
  - injection E as <- El. destruct (Hl l1 y l2 b El Hn) as (c & Hc & Hk). exists c. rewrite <- app_assoc in Hc. auto.
Qed.
Lemma ordered_prefix d l1 l2 : ordered d (l1 ++ l2) -> ordered d l1.
Proof. intros H k1 a k2 b E Hn. apply (H k1 a (k2 ++ l2) b); [|exact Hn]. rewrite E, <- app_assoc. reflexivity. Qed.

Ltac find_in := (left; reflexivity) + (right; find_in).
Ltac need := let b := fresh in let H := fresh in intros b H; inversion H; subst; cbn in *;
  repeat match goal with H : _ \/ _ |- _ => destruct H as [<-|H] end; try contradiction; try discriminate;
  once (eexists; split; [find_in|cbn; first [exact I|reflexivity]]).
Lemma plan_ordered o w : ordered [] (fst (plan o w)).
Proof.
  unfold plan. set (full := require_elidables o). generalize (filename o); intro fn.
  generalize (full && show_elisions o). intro b.
  destruct (bad_reading w); cbn [fst].
  { destruct b; cbn [when app]; repeat (apply ordered_cons; [need|]); apply ordered_nil. }
  destruct (bad_preprocess w); cbn [fst].
  { destruct b, (token_lists o); cbn [when app]; repeat (apply ordered_cons; [need|]); apply ordered_nil. }
  unfold produce.
  destruct (negb (parse_fails w full) && negb (syntax_error w full)); cbn [when app].
  2: { destruct b, (token_lists o), (show_memory o); cbn [when app]; repeat (apply ordered_cons; [need|]); apply ordered_nil. }
  generalize (show_tree o), (full_tree o), (latex o), (textout o), (htmlout o), (block o), (gloss o); intros b1 b2 b3 b4 b5 b6 b7.
  destruct b1; [destruct b2|destruct b3; [|destruct b4; [|destruct b5]]]; cbn [orb negb];
  destruct b, (token_lists o), (show_memory o); cbn [when app]; repeat (apply ordered_cons; [need|]); apply ordered_nil.
Qed.
Lemma main_order o w tr st : run o w = (tr, st) -> in_order tr.
Proof.
  intro Hr.
  assert (H : ordered [] tr).
  { destruct (filename o) as [f|] eqn:Ef; [destruct (opens w f) eqn:Eo|].
    2: { unfold run in Hr. fold (fixed o) in Hr. rewrite fixed_file, Ef, Eo in Hr.
         destruct (require_elidables o && show_elisions o); cbn [when steps step] in Hr; unfold step in Hr;
           try destruct (crashes w A_incompatible); cbn in Hr; injection Hr as <- <-;
           repeat (apply ordered_cons; [need|]); apply ordered_nil. }
    all: assert (Hop : opened o w) by (intros g Hg; congruence).
    all: rewrite (run_plan o w Hop) in Hr.
    all: destruct (steps_cut w (fst (plan o w)) (snd (plan o w))) as (l1 & l2 & El & Ef' & _).
    all: rewrite Hr in Ef'; cbn [fst] in Ef'; subst l1.
    all: apply (ordered_prefix [] tr l2); rewrite <- El; apply plan_ordered. }
  intros l1 a l2 b E Hn. exact (H l1 a l2 b E Hn).
Qed.

Lemma in_when (b : bool) (a x : action) : In x (when b [a]) <-> b = true /\ x = a.
Proof. destruct b; cbn; intuition congruence. Qed.
Lemma in_one (a x : action) : In x [a] <-> x = a. Proof. cbn. intuition congruence. Qed.
Lemma in_produce o x : In x (produce o) -> ~ In x [A_tokens_before; A_tokens_after; A_memory; A_incompatible].
Proof.
  intros H K. unfold produce in H. cbn in K.
  destruct K as [<-|[<-|[<-|[<-|[]]]]]; destruct (show_tree o), (full_tree o), (latex o), (textout o), (htmlout o); cbn in H;
    repeat (destruct H as [H|H]; [discriminate H|]); exact H.
Qed.
Lemma produce_compress o : In A_compress (produce o) <-> (show_tree o = true /\ full_tree o = false \/
     show_tree o = false /\ latex o = false /\ textout o = false /\ htmlout o = false).
Proof.
  set (isc := fun x => match x with A_compress => true | _ => false end).
  assert (E : forall l, In A_compress l <-> existsb isc l = true).
  { intro l. rewrite existsb_exists. split; [intro H; exists A_compress; auto |]. intros (x & H & K). destruct x; try discriminate K. exact H. }
  rewrite E. unfold produce. destruct (show_tree o), (full_tree o), (latex o), (textout o), (htmlout o); cbn; split; intro H;
    try discriminate H; try reflexivity; auto 6; exfalso; decompose [and or] H; discriminate.
Qed.
Lemma main_extras o w tr st : opened o w -> run o w = (tr, st) -> calm w tr ->
  (In A_compress tr <-> st = 0%N /\ (show_tree o = true /\ full_tree o = false \/
     show_tree o = false /\ latex o = false /\ textout o = false /\ htmlout o = false)) /\
  (In A_tokens_before tr <-> token_lists o = true /\ bad_reading w = false) /\
  (In A_tokens_after tr <-> token_lists o = true /\ ~ bad_words w) /\
  (In A_memory tr <-> show_memory o = true /\ ~ bad_words w) /\
  (In A_incompatible tr <-> require_elidables o = true /\ show_elisions o = true).
Proof.
  intros Ho Hr Hc. destruct (status_calm o w tr st Ho Hr Hc) as (-> & ->). clear Hr Hc Ho. rewrite <- andb_true_iff.
  rewrite <- produce_compress. pose proof (fun x => in_produce o x) as NP. unfold plan, bad_words.
  generalize dependent (produce o). intros pr NP.
  assert (N1 : ~ In A_tokens_before pr) by (intro H; apply (NP _ H); cbn; auto).
  assert (N2 : ~ In A_tokens_after pr) by (intro H; apply (NP _ H); cbn; auto).
  assert (N3 : ~ In A_memory pr) by (intro H; apply (NP _ H); cbn; auto).
  assert (N4 : ~ In A_incompatible pr) by (intro H; apply (NP _ H); cbn; auto 6). clear NP.
  generalize (require_elidables o && show_elisions o). intro se. set (full := require_elidables o). clearbody full.
  destruct (bad_reading w); [| destruct (bad_preprocess w); [| destruct (parse_fails w full); [| destruct (syntax_error w full)]]];
    cbn [fst snd negb andb]; rewrite ?in_app_iff, ?in_when, ?in_one; cbn [when]; rewrite ?in_app_iff, ?in_when, ?in_one;
    repeat apply conj; intro H; decompose [and or] H; try discriminate; try contradiction; try (exfalso; tauto); intuition congruence.
Qed.
