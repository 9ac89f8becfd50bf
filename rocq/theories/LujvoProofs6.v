(* The lujvo maker: scores, enumeration, tables. *)
From Coq Require Import String Ascii List NArith ZArith Bool Arith Lia Permutation Sorted.
From Verif Require Import Base LujvoData LujvoModel LujvoSpec LujvoProofs LujvoProofs2 LujvoProofs3 LujvoProofs4 LujvoProofs5.
Import ListNotations.
Open Scope list_scope.

(* ---- the score ---- *)
Lemma shape_value k p : form k p -> shape_score p = Some (value k).
Proof.
  destruct 1; know; unfold shape_score, is_cvccv, is_ccvcv, C, V; red_at; use; rewrite ?Ascii.eqb_refl; cbn [andb];
  destruct apos_not as [? [? [? [? ?]]]]; use; reflexivity.
Qed.
Definition quiet (o : glue) : Prop := o = None \/ o = Some "y"%char \/ o = Some "r"%char \/ o = Some "n"%char.
Lemma count_app f a b : count f (a ++ b) = (count f a + count f b)%Z.
Proof. unfold count. rewrite filter_app, app_length. lia. Qed.
Definition vow' : ascii -> bool := fun c => existsb (ceq c) (w "aeiou").
Lemma quiet_counts o : quiet o -> count (ceq "'") (glued o) = 0%Z /\ count vow' (glued o) = 0%Z.
Proof. intros [-> | [-> | [-> | ->]]]; split; reflexivity. Qed.
Lemma glued_len o : Z.of_nat (List.length (glued o)) = match o with None => 0%Z | Some _ => 1%Z end.
Proof. destruct o; reflexivity. Qed.
Definition sizes (l : list part) : Z := sum (map (fun x => Z.of_nat (List.length (snd x))) l).
Definition values (l : list part) : Z := sum (map (fun x => value (fst x)) l).
Lemma concat_cons r r' rs g0 g : concat_glue (r :: r' :: rs) (g0 :: g) = r ++ glued g0 ++ concat_glue (r' :: rs) g.
Proof. reflexivity. Qed.
Lemma tally_spec l : Forall (fun x => form (fst x) (snd x)) l -> forall g s, List.length g = List.length l -> Forall quiet g ->
  tally_up (map snd l) g s = Ok (let t := concat_glue (map snd l) g in
    Tally (tL s + Z.of_nat (List.length t)) (tA s + count (ceq "'") t) (tH s + (Z.of_nat (List.length t) - sizes l))
          (tR s + values l) (tV s + count vow' t))%Z.
Proof.
  induction 1 as [|[k p] l F Fl IH]; intros g s Lg Qg.
  - destruct s. cbn. f_equal. f_equal; lia.
  - destruct g as [|g0 g]; [discriminate Lg|]. cbn [List.length] in Lg. injection Lg as Lg. inversion Qg as [|? ? Q0 Qg']; subst.
    cbn [map snd tally_up fst]. cbn [fst snd] in F. rewrite (shape_value k p F). cbn [tl]. rewrite (IH g _ Lg Qg').
    destruct l as [|[k' p'] l].
    + cbn [map concat_glue sizes values sum fold_right fst snd]. cbn [tL tA tH tR tV]. unfold sizes, values, sum. cbn [map fold_right snd fst List.length].
      change (Z.of_nat (List.length (@nil ascii))) with 0%Z. change (count (ceq "'") []) with 0%Z. change (count vow' []) with 0%Z. f_equal. f_equal; try lia. fold vow'. lia.
    + cbn [map snd]. rewrite concat_cons. destruct (quiet_counts g0 Q0) as [C1 C2]. rewrite !app_length, !count_app, C1, C2. cbv zeta. cbn [tL tA tH tR tV].
      assert (Sz : sizes ((k, p) :: (k', p') :: l) = (Z.of_nat (List.length p) + sizes ((k', p') :: l))%Z) by reflexivity.
      assert (Vs : values ((k, p) :: (k', p') :: l) = (value k + values ((k', p') :: l))%Z) by reflexivity.
      rewrite Sz, Vs. pose proof (glued_len g0) as Gl. fold vow'. f_equal. rewrite !Nat2Z.inj_add, Gl.
      destruct g0; f_equal; lia.
Qed.
Lemma ys_quiet l : Forall quiet (ys l) /\ List.length (ys l) = List.length l.
Proof.
  induction l as [|x l [IH1 IH2]]; [split; [constructor|reflexivity]|].
  destruct l as [|y l].
  - split; [|reflexivity]. constructor; [left; reflexivity | constructor].
  - rewrite ys_cons. split; [|cbn [List.length]; now rewrite IH2]. constructor; [|exact IH1].
    destruct (y_between x y); [right; left | left]; reflexivity.
Qed.
Transparent vow.
Lemma vow_vow' c : vow c = vow' c.
Proof. reflexivity. Qed.
Opaque vow.
Lemma score_eq l t : (1000 * Z.of_nat (List.length t) - 500 * count (ceq "'") t + 100 * (Z.of_nat (List.length t) - sizes l)
   - 10 * values l - count vow' t)%Z = published_score l t.
Proof.
  unfold published_score, hyphens, how_many, count, values, sizes.
  replace (filter vow t) with (filter vow' t) by (apply filter_ext; intros; symmetry; apply vow_vow').
  reflexivity.
Qed.

Definition uses_brod (rs : list cword) : Prop := In (text "brod") rs.
Lemma brod_mark rs : existsb (fun r => Nat.eqb (List.length r) 4 && is_brod r) rs = true <-> uses_brod rs.
Proof.
  rewrite existsb_exists. unfold uses_brod, is_brod. split.
  - intros [r [I H]]. apply andb_true_iff in H. destruct H as [L H]. apply Nat.eqb_eq in L.
    destruct (list_eq_dec _ _ _) as [E|]; [|discriminate H]. rewrite <- L, firstn_all in E. rewrite E in I. exact I.
  - intros I. exists (text "brod"). split; auto.
Qed.
(* one round of the main loop, on the rafsi of one combination *)
Lemma candidate_spec l : parts l -> (2 <= List.length l)%nat ->
  exists c, candidate (map snd l) = Ok c /\ lujvo l (cword_of c) /\ score c = published_score l (cword_of c)
    /\ (mark c = "!"%char <-> uses_brod (map snd l)).
Proof.
  intros P Len. destruct (glues_lujvo l P Len) as [g [Eg [J [g0 [-> Hg0]]]]].
  unfold candidate. rewrite Eg. cbn [obind].
  destruct (ys_quiet (tl l)) as [Q Lq].
  rewrite (tally_spec l (parts_form l P)).
  2: { cbn [List.length]. rewrite Lq. destruct l; cbn in Len |- *; lia. }
  2: { constructor; auto. }
  cbn [obind]. cbv zeta. cbn [tL tA tH tR tV]. eexists. split; [reflexivity|]. cbn [cword_of score mark].
  split; [exact J|]. split; [rewrite !Z.add_0_l; apply score_eq|].
  destruct (existsb _ (map snd l)) eqn:E.
  - split; auto. intros _. now apply brod_mark.
  - split; [discriminate|]. intros K. apply brod_mark in K. congruence.
Qed.

(* ---- enumeration ---- *)
Fixpoint rank (nr c : list nat) : nat :=
  match nr, c with n :: nr, x :: c => x + n * rank nr c | _, _ => 0 end.
Fixpoint size (nr : list nat) : nat := match nr with [] => 1 | n :: nr => n * size nr end.
Lemma product_length {A} (r : list (list A)) : List.length (product r) = size (map (@List.length A) r).
Proof.
  induction r as [|l r IH]; [reflexivity|]. cbn [product map size]. rewrite <- IH. clear IH.
  generalize (product r) as L. induction L as [|x L IHL].
  - cbn. lia.
  - cbn [flat_map]. rewrite app_length, map_length, IHL. cbn [List.length]. lia.
Qed.
Lemma nth_flat {A B} (f : A -> list B) n : (forall x, List.length (f x) = n) -> forall L k x, (x < n)%nat ->
  nth_error (flat_map f L) (x + n * k) = match nth_error L k with Some a => nth_error (f a) x | None => None end.
Proof.
  intros Hn. induction L as [|a L IH]; intros k x Hx.
  - cbn [flat_map]. destruct k, (x + n * _)%nat; reflexivity.
  - cbn [flat_map]. destruct k as [|k]; cbn [nth_error].
    + rewrite nth_error_app1 by (rewrite Hn; lia). f_equal. lia.
    + rewrite nth_error_app2 by (rewrite Hn; nia). rewrite <- IH by auto. f_equal. rewrite Hn. nia.
Qed.
Lemma choose_rank (r : list (list cword)) : forall c, Forall2 (fun l x => (x < List.length l)%nat) r c ->
  nth_error (product r) (rank (map (@List.length _) r) c) = Some (choose r c).
Proof.
  induction r as [|l r IH]; intros c H; inversion H; subst; [reflexivity|].
  cbn [product map rank choose].
  rewrite (nth_flat _ (List.length l)); auto; [|intros; apply map_length].
  rewrite IH by assumption. rewrite nth_error_map. rewrite (nth_error_nth' l []) by assumption. reflexivity.
Qed.
Lemma bump_rank nr : forall c, Forall2 (fun n x => (x < n)%nat) nr c ->
  match bump nr c with
  | Some c' => Forall2 (fun n x => (x < n)%nat) nr c' /\ rank nr c' = S (rank nr c)
  | None => S (rank nr c) = size nr
  end.
Proof.
  induction nr as [|n nr IH]; intros c H; inversion H as [|? x ? c' Hx Hc]; subst; [reflexivity|].
  cbn [bump rank size]. specialize (IH _ Hc). destruct (Nat.eqb (S x) n) eqn:E.
  - apply Nat.eqb_eq in E. destruct (bump nr c') as [c2|]; cbn [option_map].
    + destruct IH as [IH1 IH2]. split; [constructor; auto; lia|]. cbn [rank]. rewrite IH2. nia.
    + nia.
  - apply Nat.eqb_neq in E. split; [constructor; auto; lia|]. cbn [rank]. lia.
Qed.
Lemma valid_len (r : list (list cword)) c : Forall2 (fun l x => (x < List.length l)%nat) r c <-> Forall2 (fun n x => (x < n)%nat) (map (@List.length _) r) c.
Proof.
  split.
  - induction 1; constructor; auto.
  - revert c. induction r; intros c H; inversion H; subst; constructor; auto.
Qed.
Lemma skipn_nth {A} (l : list A) n x : nth_error l n = Some x -> skipn n l = x :: skipn (S n) l.
Proof. revert l. induction n; intros [|y l] H; cbn in *; try discriminate; [now injection H as -> | now apply IHn]. Qed.
Lemma enumerate_spec r : (forall rs, In rs (product r) -> exists c, candidate rs = Ok c) ->
  forall room c, (0 < room)%nat -> Forall2 (fun l x => (x < List.length l)%nat) r c ->
  let P := skipn (rank (map (@List.length _) r) c) (product r) in
  exists cs, enumerate room r c = Ok (cs, Nat.leb room (List.length P)) /\ Forall2 (fun rs c => candidate rs = Ok c) (firstn room P) cs.
Proof.
  intros All. induction room as [|room IH]; intros c Hr V; [lia|]. cbn zeta.
  pose proof (choose_rank r c V) as N. destruct (All _ (nth_error_In _ _ N)) as [x Ex].
  rewrite (skipn_nth _ _ _ N). cbn [enumerate]. rewrite Ex. cbn [obind firstn].
  destruct room as [|room].
  - exists [x]. split; [reflexivity|]. cbn [firstn]. auto.
  - apply valid_len in V. pose proof (bump_rank _ _ V) as B. destruct (bump _ c) as [c'|].
    + destruct B as [B1 B2]. apply valid_len in B1. destruct (IH c' ltac:(lia) B1) as [cs [Ecs Fcs]]. rewrite B2 in Ecs, Fcs.
      rewrite Ecs. cbn [obind]. exists (x :: cs). split; [reflexivity|]. constructor; auto.
    + exists [x]. rewrite skipn_all2 by (rewrite product_length, B; lia). split; [reflexivity|]. rewrite firstn_nil. auto.
Qed.
Lemma product_in {A} (r : list (list A)) : forall x, In x (product r) <-> Forall2 (fun l a => In a l) r x.
Proof.
  induction r as [|l r IH]; intros x; cbn [product].
  - split; [intros [<-|[]]; constructor | intros H; inversion H; now left].
  - rewrite in_flat_map. split.
    + intros [rest [I K]]. apply in_map_iff in K. destruct K as [a [<- Ia]]. constructor; auto. now apply IH.
    + intros H. inversion H as [|? a ? rest Ia Ir]; subst. exists rest. split; [now apply IH|]. apply in_map_iff. eauto.
Qed.
Lemma product_nodup {A} (r : list (list A)) : Forall (@NoDup A) r -> NoDup (product r).
Proof.
  induction 1 as [|l r Hl Hr IH]; cbn [product]; [repeat constructor; intros []|].
  induction IH as [|rest R Hn HR IHR]; cbn [flat_map]; [constructor|].
  assert (NoDup (map (fun x => x :: rest) l)).
  { clear -Hl. induction Hl as [|x l Hx Hl IH]; cbn; constructor; auto. rewrite in_map_iff. intros [y [E K]]. injection E as ->. auto. }
  assert (D : forall z, In z (map (fun x => x :: rest) l) -> ~ In z (flat_map (fun rest => map (fun x => x :: rest) l) R)).
  { intros z K1 K2. apply in_map_iff in K1. destruct K1 as [a [<- _]]. apply in_flat_map in K2. destruct K2 as [rest' [I K2]].
    apply in_map_iff in K2. destruct K2 as [b [E _]]. injection E as _ ->. auto. }
  clear -H IHR D. induction (map _ l) as [|z L IH]; cbn; auto. inversion H; subst. constructor.
  - rewrite in_app_iff. intros [K|K]; auto. apply (D z); cbn; auto.
  - apply IH; auto. intros y Hy. apply D. now right.
Qed.
