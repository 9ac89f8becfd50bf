From Coq Require Import String Ascii List NArith Bool Arith Lia.
From Verif Require Import Base TokData CmavoData TokModel ErasureSpec ErasureProofs Lex2Spec TreeModel TreeOutModel TreeOutSpec ConnectProofs.
Import ListNotations.
Open Scope string_scope.
Open Scope list_scope.

(* nodes: emphasis and indicators are smaller *)
Section NodeInd.
  Variable P : node -> Prop.
  Hypothesis H : forall d l c b g k u,
    (forall z, b = Some z -> P z) -> Forall P u -> P (Node d l c b g k u).
  Fixpoint node_induction (n : node) : P n :=
    match n with
    | Node d l c b g k u =>
        H d l c b g k u
          (match b as b0 return forall z, b0 = Some z -> P z with
           | None => fun z e => match e in _ = o return match o with None => True | Some z => P z end with eq_refl => I end
           | Some y => fun z e => match e in _ = o return match o with None => True | Some z => P z end with eq_refl => node_induction y end
           end)
          ((fix go (l : list node) : Forall P l :=
             match l with [] => Forall_nil P | x :: l => Forall_cons x (node_induction x) (go l) end) u)
    end.
End NodeInd.

Lemma flat_map_ext_in {X Y} (f g : X -> list Y) l : Forall (fun x => f x = g x) l -> flat_map f l = flat_map g l.
Proof. induction 1; cbn; [reflexivity | congruence]. Qed.
Lemma flat_map_map {X Y Z} (f : X -> Y) (g : Y -> list Z) l : flat_map g (map f l) = flat_map (fun x => g (f x)) l.
Proof. induction l; cbn; [reflexivity | congruence]. Qed.
Lemma map_flat_map {X Y Z} (f : X -> list Y) (g : Y -> Z) l : map g (flat_map f l) = flat_map (fun x => map g (f x)) l.
Proof. induction l; cbn; [reflexivity | rewrite map_app; congruence]. Qed.
Lemma flat_map_flat {X Y Z} (f : X -> list Y) (g : Y -> list Z) l : flat_map g (flat_map f l) = flat_map (fun x => flat_map g (f x)) l.
Proof. induction l; cbn; [reflexivity | rewrite flat_map_app; congruence]. Qed.

(* ---------- expansion ---------- *)

Lemma alone_set_bahe b n : alone (set_bahe b n) = alone n. Proof. destruct n; reflexivity. Qed.

Lemma chain_attached n : tidy n -> map alone (bahe_chain n) = match bahe n with None => [] | Some z => attached z end.
Proof.
  induction n as [d l c b g k u IHb _] using node_induction. intro T. inversion T as [n Hb Hu E]; subst.
  cbn [bahe_chain bahe]. destruct b as [z|]; [| reflexivity].
  destruct (Hb z eq_refl) as (Uz & Tz). rewrite map_app. cbn [map]. rewrite alone_set_bahe.
  rewrite (IHb z eq_refl Tz). destruct z as [d' l' c' b' g' k' u']. cbn in Uz. subst u'. cbn [attached bahe flat_map].
  reflexivity.
Qed.

Lemma leaves_Leaf l : flat_map leaves (map Leaf l) = l.
Proof. induction l; cbn; [reflexivity | congruence]. Qed.

Lemma expand_leaf_words n : tidy n -> map alone (leaves (expand_leaf n)) = attached n.
Proof.
  induction n as [d l c b g k u _ IHu] using node_induction. intro T.
  pose proof (chain_attached _ T) as CH. inversion T as [n Hb Hu E]; subst. cbn [ui] in Hu.
  assert (U : map alone (flat_map leaves (map expand_leaf u)) = flat_map attached u).
  { rewrite flat_map_map, map_flat_map. apply flat_map_ext_in.
    rewrite Forall_forall in *. intros x I. apply IHu; auto. }
  assert (AUG : map alone (leaves (NT "AUGMENTED" (map Leaf (bahe_chain (Node d l c b g k u)) ++
      Leaf (Node d l c (option_map (set_bahe None) b) g k []) :: map expand_leaf u))) = attached (Node d l c b g k u)).
  { cbn [leaves]. rewrite flat_map_app, leaves_Leaf. rewrite map_app, CH. cbn [flat_map map leaves app]. rewrite U. reflexivity. }
  cbn [expand_leaf]. destruct b as [z|]; [exact AUG |]. destruct u as [|y u]; [reflexivity | exact AUG].
Qed.

Lemma expand_internal_words t : Forall tidy (leaves t) -> map alone (leaves (expand_internal t)) = flat_map attached (leaves t).
Proof.
  induction t as [x|ty ch IH] using tree_induction; intro T; cbn [expand_internal leaves] in *.
  - inversion T; subst. cbn. rewrite app_nil_r. apply expand_leaf_words. assumption.
  - rewrite flat_map_map, map_flat_map, flat_map_flat. apply flat_map_ext_in.
    rewrite Forall_forall in *. intros c I. apply IH; [exact I |].
    apply Forall_forall. intros x J. apply T. apply in_flat_map. exists c. auto.
Qed.
Lemma expand_words ty ch : Forall tidy (leaves (NT ty ch)) ->
  map alone (leaves (expand_bahe_ui (NT ty ch))) = flat_map attached (leaves (NT ty ch)).
Proof. exact (expand_internal_words (NT ty ch)). Qed.

(* the spelling *)
Lemma spell_attached n : flat_map spell (attached n) = spell n.
Proof.
  induction n as [d l c b g k u IHb IHu] using node_induction. cbn [attached].
  rewrite flat_map_app. cbn [flat_map]. rewrite flat_map_flat.
  assert (B : flat_map spell match b with None => [] | Some z => attached z end = match b with None => [] | Some b' => spell b' end).
  { destruct b as [z|]; [apply IHb; reflexivity | reflexivity]. }
  rewrite B. cbn [alone spell app]. rewrite <- !app_assoc. f_equal. f_equal. f_equal. f_equal. cbn [app].
  clear B. induction IHu as [|y u E _ IH]; cbn; [reflexivity |]. rewrite E, IH. reflexivity.
Qed.

Lemma expand_spelling ty ch : Forall tidy (leaves (NT ty ch)) ->
  flat_map spell (map alone (leaves (expand_bahe_ui (NT ty ch)))) = flat_map spell (leaves (NT ty ch)).
Proof.
  intro T. rewrite expand_words by exact T. rewrite flat_map_flat. apply flat_map_ext_in.
  apply Forall_forall. intros x _. apply spell_attached.
Qed.

(* constituents stay where they are *)
Lemma expand_shape_internal p : forall t, match subtree t p with
  | Some (NT ty ch) => exists ch', subtree (expand_internal t) p = Some (NT ty ch') /\ List.length ch' = List.length ch
  | Some (Leaf x) => subtree (expand_internal t) p = Some (expand_leaf x)
  | None => True
  end.
Proof.
  induction p as [|i p IH]; intro t.
  - cbn [subtree]. destruct t as [x|ty ch]; cbn [expand_internal]; [reflexivity |].
    exists (map expand_internal ch). split; [reflexivity | apply map_length].
  - cbn [subtree]. destruct t as [x|ty ch]; [exact I |]. cbn [expand_internal].
    rewrite nth_error_map. destruct (nth_error ch i) as [c|]; [| exact I]. cbn [option_map]. apply IH.
Qed.

Lemma expand_shape ty ch p : match subtree (NT ty ch) p with
  | Some (NT ty' ch') => exists ch2, subtree (expand_bahe_ui (NT ty ch)) p = Some (NT ty' ch2) /\ List.length ch2 = List.length ch'
  | Some (Leaf x) => subtree (expand_bahe_ui (NT ty ch)) p = Some (expand_leaf x) /\
      (tidy x -> map alone (leaves (expand_leaf x)) = attached x)
  | None => True
  end.
Proof.
  pose proof (expand_shape_internal p (NT ty ch)) as E. change (expand_bahe_ui (NT ty ch)) with (expand_internal (NT ty ch)).
  destruct (subtree (NT ty ch) p) as [[x|ty' ch']|]; [split; [exact E | apply expand_leaf_words] | exact E | exact I].
Qed.

Lemma expand_id t : Forall unattached (leaves t) -> expand_internal t = t.
Proof.
  induction t as [x|ty ch IH] using tree_induction; intro U; cbn [leaves expand_internal] in *.
  - inversion U as [|? ? (B & V) _]; subst. destruct x as [d l c b g k u]. cbn in B, V. subst. reflexivity.
  - f_equal. rewrite <- (map_id ch) at 2. apply map_ext_in. rewrite Forall_forall in *. intros c I. apply IH; [exact I |].
    apply Forall_forall. intros x J. apply U. apply in_flat_map. exists c. auto.
Qed.
Lemma expand_nothing ty ch : Forall unattached (leaves (NT ty ch)) -> expand_bahe_ui (NT ty ch) = NT ty ch.
Proof. exact (expand_id (NT ty ch)). Qed.

Lemma expand_leaf_done n : tidy n -> Forall (fun x => ui x = []) (leaves (expand_leaf n)).
Proof.
  induction n as [d l c b g k u _ IHu] using node_induction. intro T.
  assert (CH : forall n, tidy n -> Forall (fun x => ui x = []) (bahe_chain n)).
  { clear. induction n as [d l c b g k u IHb _] using node_induction. intro T. inversion T as [n Hb Hu E]; subst.
    cbn [bahe_chain]. destruct b as [z|]; [| constructor]. destruct (Hb z eq_refl) as (Uz & Tz).
    apply Forall_app. split; [apply IHb; auto |]. constructor; [| constructor]. destruct z; exact Uz. }
  specialize (CH _ T). inversion T as [n Hb Hu E]; subst. cbn [ui] in Hu.
  assert (AUG : Forall (fun x => ui x = []) (leaves (NT "AUGMENTED" (map Leaf (bahe_chain (Node d l c b g k u)) ++
      Leaf (Node d l c (option_map (set_bahe None) b) g k []) :: map expand_leaf u)))).
  { cbn [leaves]. rewrite flat_map_app, leaves_Leaf. apply Forall_app. split; [exact CH |].
    cbn [flat_map leaves app]. constructor; [reflexivity |]. rewrite flat_map_map.
    apply Forall_forall. intros x I. apply in_flat_map in I. destruct I as (y & I1 & I2).
    rewrite !Forall_forall in *. specialize (IHu y I1 (Hu y I1)). rewrite Forall_forall in IHu. apply IHu, I2. }
  cbn [expand_leaf]. destruct b as [z|]; [exact AUG |]. destruct u as [|y u]; [constructor; [reflexivity | constructor] | exact AUG].
Qed.
Lemma expand_done ty ch : Forall tidy (leaves (NT ty ch)) -> Forall (fun x => ui x = []) (leaves (expand_bahe_ui (NT ty ch))).
Proof.
  change (expand_bahe_ui (NT ty ch)) with (expand_internal (NT ty ch)). generalize (NT ty ch) as t.
  induction t as [x|ty' ch' IH] using tree_induction; intro T; cbn [leaves expand_internal] in *.
  - inversion T; subst. apply expand_leaf_done. assumption.
  - rewrite flat_map_map. apply Forall_forall. intros x I. apply in_flat_map in I. destruct I as (y & I1 & I2).
    rewrite Forall_forall in IH. assert (Ty : Forall tidy (leaves y)).
    { rewrite Forall_forall in *. intros z J. apply T, in_flat_map. exists y. auto. }
    specialize (IH y I1 Ty). rewrite Forall_forall in IH. apply IH, I2.
Qed.

(* ---------- compression ---------- *)

Lemma squash_node ty ch : List.length ch <> 1 -> squash (NT ty ch) = NT ty (map squash ch).
Proof. destruct ch as [|a [|b ch]]; cbn; intro; try reflexivity; congruence. Qed.

Lemma squash_leaves t : leaves (squash t) = leaves t.
Proof.
  induction t as [x|ty ch IH] using tree_induction; [reflexivity |].
  destruct (Nat.eq_dec (List.length ch) 1) as [E|E].
  - destruct ch as [|c [|b ch]]; try discriminate. cbn. rewrite app_nil_r. inversion IH; assumption.
  - rewrite squash_node by exact E. cbn [leaves]. rewrite flat_map_map. apply flat_map_ext_in. exact IH.
Qed.
Lemma compress_leaves t : leaves (compress_singletons t) = leaves t.
Proof.
  destruct t as [x|ty ch]; [reflexivity |]. cbn. rewrite flat_map_map. apply flat_map_ext_in.
  apply Forall_forall. intros c _. apply squash_leaves.
Qed.

Lemma squash_tight t : tight (squash t).
Proof.
  induction t as [x|ty ch IH] using tree_induction; [constructor |].
  destruct (Nat.eq_dec (List.length ch) 1) as [E|E].
  - destruct ch as [|c [|b ch]]; try discriminate. inversion IH; assumption.
  - rewrite squash_node by exact E. constructor; [rewrite map_length; exact E |].
    apply Forall_forall. intros u I. apply in_map_iff in I. destruct I as (c & <- & I). rewrite Forall_forall in IH. auto.
Qed.
Lemma compress_tight t ty ch : compress_singletons t = NT ty ch -> Forall tight ch.
Proof.
  destruct t as [x|ty' ch']; [discriminate |]. cbn. intro E. injection E as <- <-.
  apply Forall_forall. intros u I. apply in_map_iff in I. destruct I as (c & <- & I). apply squash_tight.
Qed.

Lemma squash_shrinks t : shrinks t (squash t).
Proof.
  induction t as [x|ty ch IH] using tree_induction; [constructor |].
  destruct (Nat.eq_dec (List.length ch) 1) as [E|E].
  - destruct ch as [|c [|b ch]]; try discriminate. cbn. apply sh_level. inversion IH; assumption.
  - rewrite squash_node by exact E. apply sh_node. clear E. induction IH; constructor; auto.
Qed.
Lemma compress_shrinks t : shrinks t (compress_singletons t).
Proof.
  destruct t as [x|ty ch]; [constructor |]. cbn. apply sh_node. induction ch; constructor; auto using squash_shrinks.
Qed.

Lemma shrinks_squash t : forall u, shrinks t u -> tight u -> u = squash t.
Proof.
  induction t as [x|ty ch IH] using tree_induction; intros u S T; inversion S; subst.
  - reflexivity.
  - cbn. inversion IH; subst. auto.
  - inversion T as [|? ? L F]; subst.
    assert (LL : List.length ch = List.length us) by (clear -H2; induction H2; cbn; auto).
    rewrite squash_node by congruence. f_equal.
    clear S T L LL. induction H2 as [|c u ch us C _ IH2]; [reflexivity |]. cbn.
    inversion IH; subst. inversion F; subst. f_equal; auto.
Qed.
Lemma compress_unique ty ch us : Forall2 shrinks ch us -> Forall tight us -> compress_singletons (NT ty ch) = NT ty us.
Proof.
  intros S T. cbn. f_equal. induction S as [|c u ch us C _ IH]; [reflexivity |]. cbn.
  inversion T; subst. f_equal; [symmetry; apply shrinks_squash; assumption | auto].
Qed.
Lemma squash_tight_id t : tight t -> squash t = t.
Proof.
  induction t as [x|ty ch IH] using tree_induction; intro T; [reflexivity |]. inversion T as [|? ? L F]; subst.
  rewrite squash_node by exact L. f_equal. rewrite <- (map_id ch) at 2. apply map_ext_in. intros c I.
  rewrite Forall_forall in *. auto.
Qed.
Lemma compress_twice t : compress_singletons (compress_singletons t) = compress_singletons t.
Proof.
  destruct t as [x|ty ch]; [reflexivity |]. cbn. f_equal. rewrite map_map. apply map_ext. intro c.
  apply squash_tight_id, squash_tight.
Qed.

Lemma new_node_leaves ty ch : leaves (new_node ty ch) = flat_map (fun c => match c with Some c => leaves c | None => [] end) ch.
Proof. unfold new_node. cbn [leaves]. induction ch as [|[c|] ch IH]; cbn; congruence. Qed.
