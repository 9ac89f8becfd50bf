From Coq Require Import List NArith Bool Lia.
From Verif Require Import Base MemModel MemSpec.
Import ListNotations.
Open Scope N_scope.

Definition shift (l : list (N * N)) : held := map (fun b => (fst b + 8, snd b)) l.
Record inv (m : mem) (l : held) : Prop := {
  inv_heads : shift (heads m) = l;
  inv_nodup : NoDup (map fst l);
  inv_use : in_use m = wrap (total l) }.
Lemma inv0 : inv mem0 [].
Proof. constructor; [reflexivity|constructor|reflexivity]. Qed.
Lemma pos64 : 2 ^ 64 <> 0. Proof. discriminate. Qed.
Lemma wrap_lt : forall a, wrap a < 2 ^ 64.
Proof. intro a. apply N.mod_lt, pos64. Qed.
Lemma wrap_add : forall a b, wrap (wrap a + b) = wrap (a + b).
Proof. intros. unfold wrap. rewrite N.add_mod_idemp_l by apply pos64. reflexivity. Qed.
Lemma wrap_small : forall a, a < 2 ^ 64 -> wrap a = a.
Proof. intros. apply N.mod_small. assumption. Qed.
Lemma sub_wrap : forall a v, sub64 (wrap (v + a)) v = wrap a.
Proof.
  intros a v. unfold sub64. rewrite wrap_add.
  pose proof (wrap_lt v) as L. pose proof (N.div_mod v (2 ^ 64) pos64) as D. fold (wrap v) in D.
  replace (v + a + (2 ^ 64 - wrap v)) with (a + (v / 2 ^ 64 + 1) * 2 ^ 64) by lia.
  unfold wrap. apply N.mod_add, pos64.
Qed.
Lemma head_at_in : forall s h, In (s + 8) (map fst (shift h)) -> exists v, head_at s h = Some v.
Proof.
  intros s h. induction h as [|[a v] h IH]; cbn [shift map fst snd head_at In]; [tauto|].
  destruct (N.eqb_spec a s) as [->|N]; [eexists; reflexivity|]. intros [E|H]; [lia|]. apply IH, H.
Qed.
Lemma without_none : forall x l, ~ In x (map fst l) -> without x l = l.
Proof.
  intros x l. induction l as [|[a v] l IH]; intro H; [reflexivity|]. unfold without in *. cbn [filter fst].
  destruct (N.eqb_spec a x) as [->|N]; [exfalso; apply H; left; reflexivity|]. cbn [negb]. f_equal. apply IH. intro K. apply H. right. exact K.
Qed.
Lemma drop_without : forall s v h, NoDup (map fst (shift h)) -> head_at s h = Some v ->
  shift (drop s h) = without (s + 8) (shift h) /\ total (shift h) = v + total (without (s + 8) (shift h)).
Proof.
  intros s v h. induction h as [|[a w] h IH]; intros ND H; [discriminate|].
  cbn [head_at] in H. change (shift ((a, w) :: h)) with ((a + 8, w) :: shift h) in *.
  cbn [map fst] in ND. inversion ND as [|? ? NI ND']; subst. cbn [drop].
  unfold without. cbn [filter fst]. fold (without (s + 8) (shift h)).
  destruct (N.eqb_spec a s) as [->|NE].
  - injection H as ->. rewrite N.eqb_refl. cbn [negb]. rewrite (without_none (s + 8) (shift h) NI). split; reflexivity.
  - destruct (N.eqb_spec (a + 8) (s + 8)) as [E|_]; [lia|]. cbn [negb].
    change (shift ((a, w) :: drop s h)) with ((a + 8, w) :: shift (drop s h)).
    destruct (IH ND' H) as [-> T]. split; [reflexivity|]. unfold total in *. cbn [map snd fold_right]. lia.
Qed.
Lemma without_nodup : forall x l, NoDup (map fst l) -> NoDup (map fst (without x l)).
Proof.
  intros x l H. induction l as [|[a v] l IH]; [constructor|]. cbn [map fst] in H. inversion H as [|? ? NI ND]; subst.
  unfold without. cbn [filter fst]. fold (without x l). destruct (negb (a =? x)); [|apply IH, ND].
  cbn [map fst]. constructor; [|apply IH, ND]. intro K. apply NI. apply in_map_iff in K. destruct K as ([b w] & <- & K).
  unfold without in K. apply filter_In in K. apply in_map_iff. exists (b, w). tauto.
Qed.
Lemma put_ok : forall n s m m' p, put_head n (Some s) m = Ok (m', p) ->
  m' = Mem (in_use m) (max_use m) ((s, n) :: heads m) /\ p = s + 8.
Proof. intros n s m m' p H. cbn [put_head] in H. destruct (_ <? 8); [discriminate|]. injection H as <- <-. auto. Qed.
Lemma put_fair : forall n s m, n + 8 < 2 ^ 64 -> put_head n (Some s) m = Ok (Mem (in_use m) (max_use m) ((s, n) :: heads m), s + 8).
Proof. intros n s m H. cbn [put_head]. rewrite wrap_small by exact H. destruct (N.ltb_spec (n + 8) 8); [lia|reflexivity]. Qed.
Lemma note_heads : forall m, heads (note_max m) = heads m /\ in_use (note_max m) = in_use m /\ max_use (note_max m) = N.max (max_use m) (in_use m).
Proof. intro m. unfold note_max. destruct (N.ltb_spec (max_use m) (in_use m)) as [L|L]; cbn; repeat split; lia. Qed.

Lemma header_fair : forall x m l, inv m l -> In x (map fst l) -> exists s v, header x m = Ok (s, v) /\ x = s + 8 /\ head_at s (heads m) = Some v.
Proof.
  intros x m l [H ND U] HI. assert (8 <= x).
  { rewrite <- H in HI. apply in_map_iff in HI. destruct HI as ([a v] & <- & HI). unfold shift in HI. apply in_map_iff in HI.
    destruct HI as ([a' v'] & E & _). injection E as <- <-. cbn [fst]. lia. }
  unfold header. destruct (N.ltb_spec x 8); [lia|].
  destruct (head_at_in (x - 8) (heads m)) as [v E].
  - rewrite H. replace (x - 8 + 8) with x by lia. exact HI.
  - rewrite E. exists (x - 8), v. repeat split; [lia|exact E].
Qed.
Lemma step_fair : forall o m l, inv m l -> fair o l -> exists m' p, mem_step o m = Ok (m', p) /\ inv m' (hold o l)
  /\ max_use m' = match o with Free _ => max_use m | _ => N.max (max_use m) (in_use m') end.
Proof.
  intros o m l I F. destruct o as [n got|old n got|x]; cbn [mem_step hold fair] in *.
  - destruct got as [s|]; [|tauto]. destruct F as [F1 F2]. rewrite put_fair by exact F2.
    destruct (note_heads (Mem (wrap (in_use m + n)) (max_use m) (heads m))) as (N1 & N2 & N3). cbn [in_use max_use heads] in *.
    eexists. eexists. split; [reflexivity|]. cbn [in_use max_use heads]. split; [|rewrite N3, N2; reflexivity].
    destruct I as [H ND U]. constructor; cbn [in_use max_use heads].
    + rewrite N1. cbn [shift map fst snd]. fold (shift (heads m)). rewrite H. reflexivity.
    + cbn [map fst]. constructor; assumption.
    + rewrite N2, U, wrap_add. f_equal. unfold total. cbn [map snd fold_right]. lia.
  - destruct got as [s|]; [|tauto]. destruct F as (F1 & F2 & F3).
    destruct (header_fair old m l I F1) as (s0 & v & E & X & HA). rewrite E. cbn [obind]. rewrite put_fair by exact F3.
    destruct (note_heads (Mem (wrap (sub64 (in_use m) v + n)) (max_use m) (drop s0 (heads m)))) as (N1 & N2 & N3). cbn [in_use max_use heads] in *.
    eexists. eexists. split; [reflexivity|]. cbn [in_use max_use heads]. split; [|rewrite N3, N2; reflexivity].
    destruct I as [H ND U]. rewrite <- H in ND. destruct (drop_without s0 v (heads m) ND HA) as [D T]. rewrite H, <- X in *.
    constructor; cbn [in_use max_use heads].
    + rewrite N1. cbn [shift map fst snd]. fold (shift (drop s0 (heads m))). rewrite D. reflexivity.
    + cbn [map fst]. constructor; [exact F2|apply without_nodup, ND].
    + rewrite N2, U, T, sub_wrap, wrap_add. f_equal. unfold total. cbn [map snd fold_right]. lia.
  - destruct (header_fair x m l I F) as (s0 & v & E & X & HA). rewrite E. cbn [obind].
    eexists. eexists. split; [reflexivity|]. cbn [max_use]. split; [|reflexivity].
    destruct I as [H ND U]. rewrite <- H in ND. destruct (drop_without s0 v (heads m) ND HA) as [D T]. rewrite H, <- X in *.
    constructor; cbn [in_use max_use heads].
    + exact D.
    + apply without_nodup, ND.
    + rewrite U, T. apply sub_wrap.
Qed.
Lemma run_fair : forall os m l, inv m l -> fairs os l -> exists m', mem_run os m = Ok m' /\ inv m' (holds os l).
Proof.
  induction os as [|o os IH]; intros m l I F; cbn [mem_run holds fairs] in *; [exists m; auto|].
  destruct F as [F1 F2]. destruct (step_fair o m l I F1) as (m1 & p & E & I1 & _). rewrite E. cbn [obind fst].
  apply IH; assumption.
Qed.
Theorem balance : forall os, fairs os [] -> exists m, mem_run os mem0 = Ok m /\ in_use m = total (holds os []) mod 2 ^ 64.
Proof. intros os F. destruct (run_fair os mem0 [] inv0 F) as (m & E & [_ _ U]). exists m. split; [exact E|exact U]. Qed.

Lemma hold_free : forall x l, total (without x l) <= total l.
Proof.
  intros x l. induction l as [|[a v] l IH]; [cbn; lia|]. unfold without in *. cbn [filter fst].
  destruct (negb (a =? x)); unfold total in *; cbn [map snd fold_right]; lia.
Qed.
Lemma run_peak : forall os m l m', inv m l -> fairs os l -> peak os l < 2 ^ 64 -> total l < 2 ^ 64 -> total l <= max_use m ->
  mem_run os m = Ok m' -> max_use m' = N.max (max_use m) (peak os l).
Proof.
  induction os as [|o os IH]; intros m l m' I F P T M H; cbn [mem_run fairs peak] in *.
  - injection H as <-. lia.
  - destruct F as [F1 F2]. destruct (step_fair o m l I F1) as (m1 & p & E & I1 & X). rewrite E in H. cbn [obind fst] in H.
    assert (U : in_use m1 = total (hold o l)) by (destruct I1 as [_ _ U]; rewrite U; apply wrap_small; lia).
    rewrite (IH m1 (hold o l) m' I1 F2); [| lia | lia | | exact H].
    + rewrite X. destruct o as [n got|old n got|x]; rewrite ?U; try lia. cbn [hold]. pose proof (hold_free x l). lia.
    + rewrite X. destruct o as [n got|old n got|x]; rewrite ?U; try lia. cbn [hold]. pose proof (hold_free x l). lia.
Qed.
Theorem peaks : forall os m, fairs os [] -> peak os [] < 2 ^ 64 -> mem_run os mem0 = Ok m ->
  statistics m = (total (holds os []), peak os []).
Proof.
  intros os m F P H. unfold statistics. f_equal.
  - destruct (run_fair os mem0 [] inv0 F) as (m1 & E & [_ _ U]). rewrite E in H. injection H as <-. rewrite U. apply wrap_small.
    assert (L : forall os l, total l <= N.max (total l) (peak os l) /\ total (holds os l) <= N.max (total l) (peak os l)).
    { clear. induction os as [|o os IH]; intro l; cbn [holds peak]; [lia|]. destruct (IH (hold o l)). lia. }
    destruct (L os []) as [_ L2]. cbn [total map fold_right] in L2. lia.
  - rewrite (run_peak os mem0 [] m inv0 F P); [cbn [max_use mem0]; lia| | |exact H]; cbn; lia.
Qed.
