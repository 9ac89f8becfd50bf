(* Sets of terminators to keep. *)
From Coq Require Import String List NArith Bool Arith Sorted Lia.
From Verif Require Import Base TokData TokModel StreamModel StreamSpec ElideModel ElideSpec.
Import ListNotations.
Open Scope list_scope.

Section Chains.
  Variable x : nat -> nat -> bool.

  (* the largest j below b with x k j *)
  Fixpoint top (k b : nat) : option nat :=
    match b with 0 => None | S j => if x k j then Some j else top k j end.
  Lemma top_some k b j : top k b = Some j -> j < b /\ x k j = true /\ forall i, i < b -> x k i = true -> i <= j.
  Proof.
    induction b as [|b IH]; cbn; [discriminate|]. destruct (x k b) eqn:E.
    - intro H. injection H as <-. repeat split; [lia|exact E|]. intros. lia.
    - intro H. destruct (IH H) as (A & B & C). repeat split; [lia|exact B|].
      intros i Hi Hx. destruct (Nat.eq_dec i b) as [->|]; [congruence|]. apply C; [lia|exact Hx].
  Qed.
  Lemma top_none k b : top k b = None -> forall i, i < b -> x k i = false.
  Proof.
    induction b as [|b IH]; cbn; [intros; lia|]. destruct (x k b) eqn:E; [discriminate|].
    intros H i Hi. destruct (Nat.eq_dec i b) as [->|]; [exact E|]. apply IH; [exact H|lia].
  Qed.

  Fixpoint chains (fuel k : nat) (later : list nat) (prev : nat) : list (list nat) :=
    match fuel with
    | 0 => []
    | S fuel =>
        match top k k with
        | None => [later]
        | Some j => flat_map (fun i => if Nat.leb prev i then [] else chains fuel i (i :: later) j) (seq j (k - j))
        end
    end.
  Inductive chain : nat -> nat -> list nat -> Prop :=
  | ch_end k prev : top k k = None -> chain k prev []
  | ch_step k prev j i l : top k k = Some j -> j <= i < k -> i < prev -> chain i j l -> chain k prev (l ++ [i]).

  Lemma chains_in : forall fuel k later prev p, k < fuel -> In p (chains fuel k later prev) <-> exists l, chain k prev l /\ p = l ++ later.
  Proof.
    induction fuel as [|fuel IH]; intros k later prev p Hk; [lia|]. cbn [chains].
    destruct (top k k) as [j|] eqn:Et.
    - rewrite in_flat_map. split.
      + intros (i & Hi & Hp). apply in_seq in Hi. destruct (Nat.leb_spec prev i) as [|Hlt]; [destruct Hp|].
        apply IH in Hp; [|lia]. destruct Hp as (l & Hl & ->). exists (l ++ [i]). split.
        * apply (ch_step _ _ j); auto. lia.
        * rewrite <- app_assoc. reflexivity.
      + intros (l & Hl & ->). inversion Hl as [|? ? j' i l0 Et' Hi Hp Hc]; subst; [congruence|].
        rewrite Et in Et'. injection Et' as <-. exists i. split; [apply in_seq; lia|].
        destruct (Nat.leb_spec prev i); [lia|]. apply IH; [lia|]. exists l0. split; [exact Hc|]. rewrite <- app_assoc. reflexivity.
    - split.
      + intros [<-|[]]. exists []. split; [constructor; exact Et|reflexivity].
      + intros (l & Hl & ->). inversion Hl; subst; [left; reflexivity|congruence].
  Qed.

  Lemma app_tail_eq {A} (l l' t t' : list A) (a b : A) : List.length t = List.length t' -> l ++ a :: t = l' ++ b :: t' -> a = b.
  Proof.
    intros Ht E. apply (f_equal (@rev A)) in E. rewrite !rev_app_distr in E. cbn in E. rewrite <- !app_assoc in E. cbn in E.
    assert (El : List.length (rev t) = List.length (rev t')) by (rewrite !rev_length; exact Ht).
    assert (E' : skipn (List.length (rev t)) (rev t ++ a :: rev l) = skipn (List.length (rev t')) (rev t' ++ b :: rev l')) by congruence.
    rewrite !skipn_app, !skipn_all, !Nat.sub_diag in E'. cbn in E'. congruence.
  Qed.
  Lemma NoDup_join {A B} (f : A -> list B) : forall l, NoDup l -> (forall a, In a l -> NoDup (f a)) ->
    (forall a b c, In a l -> In b l -> In c (f a) -> In c (f b) -> a = b) -> NoDup (flat_map f l).
  Proof.
    induction l as [|a l IH]; intros Hn Hf Hd; cbn; [constructor|]. inversion Hn as [|? ? Hna Hnl]; subst.
    assert (IHl : NoDup (flat_map f l)).
    { apply IH; [exact Hnl|intros; apply Hf; right; assumption|]. intros; eapply Hd; eauto; right; assumption. }
    assert (Ha : NoDup (f a)) by (apply Hf; left; reflexivity).
    assert (Hdis : forall c, In c (f a) -> ~ In c (flat_map f l)).
    { intros c Hc Hin. apply in_flat_map in Hin. destruct Hin as (b & Hb & Hcb).
      assert (a = b) by (eapply Hd; eauto; [left; reflexivity|right; exact Hb]). subst. contradiction. }
    clear - IHl Ha Hdis. induction (f a) as [|c l1 IH1]; cbn; [exact IHl|]. inversion Ha; subst. constructor.
    - intro Hin. apply in_app_or in Hin. destruct Hin; [contradiction|]. eapply Hdis; [left; reflexivity|eassumption].
    - apply IH1; [assumption|]. intros; apply Hdis; right; assumption.
  Qed.
  Lemma chains_nodup : forall fuel k later prev, k < fuel -> NoDup (chains fuel k later prev).
  Proof.
    induction fuel as [|fuel IH]; intros k later prev Hk; [constructor|]. cbn [chains].
    destruct (top k k) as [j|]; [|repeat constructor; intros []]. apply NoDup_join.
    - apply seq_NoDup.
    - intros i Hi. apply in_seq in Hi. destruct (Nat.leb prev i); [constructor|]. apply IH. lia.
    - intros i i' c Hi Hi' Hc Hc'. apply in_seq in Hi, Hi'.
      destruct (Nat.leb prev i); [destruct Hc|]. destruct (Nat.leb prev i'); [destruct Hc'|].
      apply chains_in in Hc; [|lia]. apply chains_in in Hc'; [|lia].
      destruct Hc as (l & _ & ->). destruct Hc' as (l' & _ & E). apply (app_tail_eq l l' later later i i' eq_refl E).
  Qed.

  (* the relation *)
  Definition X (k j : nat) : Prop := x k j = true.

  Lemma chain_below k prev l : chain k prev l -> StronglySorted lt l /\ Forall (fun i => i < k) l /\ Forall (fun i => i < prev) l.
  Proof.
    induction 1 as [k prev Ht|k prev j i l Ht Hi Hp Hc (IS & IK & IP)].
    - repeat constructor.
    - repeat split.
      + clear - IS IK. induction l as [|a l IH]; cbn; [repeat constructor|].
        inversion IS; subst. inversion IK; subst. constructor; [apply IH; assumption|].
        apply Forall_app. split; [assumption|]. repeat constructor. assumption.
      + apply Forall_app. split; [|repeat constructor; lia]. eapply Forall_impl; [|exact IK]. cbn. intros; lia.
      + apply Forall_app. split; [|repeat constructor; lia].
        eapply Forall_impl; [|exact IK]. cbn. intros; lia.
  Qed.
  Lemma sorted_snoc (l : list nat) i : StronglySorted lt (l ++ [i]) -> StronglySorted lt l /\ Forall (fun a => a < i) l.
  Proof.
    induction l as [|a l IH]; cbn; intro H; [repeat constructor|]. inversion H as [|? ? Hs Hf]; subst.
    destruct (IH Hs) as (A & B). apply Forall_app in Hf. destruct Hf as (Hf1 & Hf2). inversion Hf2; subst.
    split; constructor; assumption.
  Qed.
  Lemma sorted_add (l : list nat) i : StronglySorted lt l -> Forall (fun a => a < i) l -> StronglySorted lt (l ++ [i]).
  Proof.
    induction l as [|a l IH]; cbn; intros Hs Hf; [repeat constructor|]. inversion Hs; subst. inversion Hf; subst.
    constructor; [apply IH; assumption|]. apply Forall_app. split; [assumption|repeat constructor; assumption].
  Qed.

  Lemma suff_snoc k i j l : top k k = Some j -> j <= i < k -> Forall (fun a => a < i) l -> sufficient X i l -> sufficient X k (l ++ [i]).
  Proof.
    intros Ht Hi Hl Hs k' j' Hk' Hj Hx. destruct Hk' as [->|Hin].
    - apply top_some in Ht. destruct Ht as (_ & _ & Hmax). exists i. split; [apply in_or_app; right; left; reflexivity|].
      specialize (Hmax j' Hj Hx). lia.
    - destruct (Hs k' j') as (g & Hg & Hlt); [|exact Hj|exact Hx|].
      + apply in_app_or in Hin. destruct Hin as [Hin|[->|[]]]; auto.
      + exists g. split; [apply in_or_app; left; exact Hg|exact Hlt].
  Qed.
  Lemma suff_unsnoc k i l : Forall (fun a => a < i) l -> sufficient X k (l ++ [i]) -> sufficient X i l.
  Proof.
    intros Hl Hs k' j' Hk' Hj Hx.
    assert (Hle : k' <= i).
    { destruct Hk' as [->|Hin]; [lia|]. rewrite Forall_forall in Hl. specialize (Hl k' Hin). lia. }
    destruct (Hs k' j') as (g & Hg & Hlt); [|exact Hj|exact Hx|].
    - right. apply in_or_app. destruct Hk' as [->|Hin]; [right; left; reflexivity|left; exact Hin].
    - apply in_app_or in Hg. destruct Hg as [Hg|[->|[]]]; [|lia]. exists g. auto.
  Qed.

  Lemma snoc_cases {A} (l : list A) : l = [] \/ exists l0 i, l = l0 ++ [i].
  Proof. destruct l as [|a l]; [left; reflexivity|]. right. exists (removelast (a :: l)), (last (a :: l) a). apply app_removelast_last. discriminate. Qed.

  Lemma chain_minimal k prev l : chain k prev l -> minimal X k l.
  Proof.
    induction 1 as [k prev Ht|k prev j i l Ht Hi Hp Hc (IS & IM)].
    - split.
      + intros k' j' [->|[]] Hj Hx. pose proof (top_none _ _ Ht j' Hj). unfold X in Hx. congruence.
      + intros l' _ Hin _. destruct l' as [|a l']; [reflexivity|]. destruct (Hin a (or_introl eq_refl)).
    - destruct (chain_below _ _ _ Hc) as (Hsort & Hbi & Hbj).
      split; [eapply suff_snoc; eauto|].
      intros l' (Hs' & Hb') Hincl Hsuff.
      destruct (top_some _ _ _ Ht) as (Hjk & Hxj & _).
      destruct (Hsuff k j (or_introl eq_refl) Hjk Hxj) as (g & Hg & Hgr).
      assert (Eg : g = i).
      { specialize (Hincl g Hg). apply in_app_or in Hincl. destruct Hincl as [Hin|[->|[]]]; [|reflexivity].
        rewrite Forall_forall in Hbj. specialize (Hbj g Hin). lia. }
      subst g.
      destruct (snoc_cases l') as [->|(l0 & a & ->)]; [destruct Hg|].
      assert (Ea : a = i).
      { destruct (sorted_snoc _ _ Hs') as (_ & Hfa). apply in_app_or in Hg. destruct Hg as [Hg|[->|[]]]; [|reflexivity].
        rewrite Forall_forall in Hfa. specialize (Hfa i Hg).
        assert (Hina : In a (l ++ [i])) by (apply Hincl; apply in_or_app; right; left; reflexivity).
        apply in_app_or in Hina. destruct Hina as [Hina|[->|[]]]; [|lia].
        rewrite Forall_forall in Hbi. specialize (Hbi a Hina). lia. }
      subst a. f_equal. destruct (sorted_snoc _ _ Hs') as (Hs0 & Hf0). apply IM.
      + split; [exact Hs0|]. exact Hf0.
      + intros b Hb. specialize (Hincl b (in_or_app _ _ _ (or_introl Hb))). apply in_app_or in Hincl.
        destruct Hincl as [H|[->|[]]]; [exact H|]. rewrite Forall_forall in Hf0. specialize (Hf0 b Hb). lia.
      + eapply suff_unsnoc; eauto.
  Qed.

  Lemma minimal_chain : forall n l k prev, List.length l = n -> selection k l -> Forall (fun i => i < prev) l -> minimal X k l -> chain k prev l.
  Proof.
    induction n as [|n IH]; intros l k prev Hn (Hs & Hb) Hp (Hsuff & Hmin).
    - destruct l; [|discriminate]. constructor. destruct (top k k) as [j|] eqn:Et; [|reflexivity].
      destruct (top_some _ _ _ Et) as (Hj & Hx & _). destruct (Hsuff k j (or_introl eq_refl) Hj Hx) as (g & [] & _).
    - destruct (snoc_cases l) as [->|(l0 & i & ->)]; [discriminate|].
      rewrite app_length in Hn. cbn in Hn. apply Forall_app in Hb, Hp. destruct Hb as (Hb0 & Hbi). destruct Hp as (Hp0 & Hpi).
      inversion Hbi as [|? ? Hik _]; subst. inversion Hpi as [|? ? Hip _]; subst.
      destruct (sorted_snoc _ _ Hs) as (Hs0 & Hf0).
      destruct (top k k) as [j|] eqn:Et.
      + destruct (top_some _ _ _ Et) as (Hj & Hx & Hmax).
        assert (Hji : j <= i).
        { destruct (Hsuff k j (or_introl eq_refl) Hj Hx) as (g & Hg & Hgr). apply in_app_or in Hg. destruct Hg as [Hg|[->|[]]]; [|lia].
          rewrite Forall_forall in Hf0. specialize (Hf0 g Hg). lia. }
        pose proof (suff_unsnoc k i l0 Hf0 Hsuff) as Hsuff0.
        apply (ch_step k prev j i l0 Et); [lia|exact Hip|]. apply IH; [lia|split; assumption| |].
        * (* all below j *)
          apply Forall_forall. intros a Ha. destruct (le_lt_dec j a) as [Hja|]; [exfalso|assumption].
          assert (E : l0 = l0 ++ [i]).
          { apply Hmin; [split; assumption|intros b Hb; apply in_or_app; left; exact Hb|].
            intros k' j' Hk' Hj' Hx'. destruct Hk' as [->|Hin].
            - specialize (Hmax j' Hj' Hx'). exists a. split; [exact Ha|]. rewrite Forall_forall in Hb0. specialize (Hb0 a Ha). lia.
            - exact (Hsuff0 k' j' (or_intror Hin) Hj' Hx'). }
          apply (f_equal (@List.length nat)) in E. rewrite app_length in E. cbn in E. lia.
        * split; [exact Hsuff0|]. intros l' (Hs' & Hb') Hincl Hsuff'.
          assert (E : l' ++ [i] = l0 ++ [i]).
          { apply Hmin.
            - split; [apply sorted_add; assumption|]. apply Forall_app. split; [|repeat constructor; exact Hik].
              eapply Forall_impl; [|exact Hb']. cbn. intros; lia.
            - intros b Hb. apply in_app_or in Hb. apply in_or_app. destruct Hb; [left; apply Hincl; assumption|right; assumption].
            - eapply suff_snoc; eauto. }
          apply app_inj_tail in E. tauto.
      + exfalso. assert (E : [] = l0 ++ [i]).
        { apply Hmin; [repeat constructor|intros b []|]. intros k' j' [->|[]] Hj Hx.
          pose proof (top_none _ _ Et j' Hj). unfold X in Hx. congruence. }
        destruct l0; discriminate.
  Qed.

  Lemma chains_minimal m : (forall l, In l (chains (S (S m)) m [] (S m)) <-> selection m l /\ minimal X m l) /\ NoDup (chains (S (S m)) m [] (S m)).
  Proof.
    split; [|apply chains_nodup; lia]. intro l. rewrite chains_in by lia. split.
    - intros (p & Hp & ->). rewrite app_nil_r. destruct (chain_below _ _ _ Hp) as (A & B & _).
      split; [split; assumption|]. eapply chain_minimal; eauto.
    - intros (Hs & Hm). exists l. split; [|rewrite app_nil_r; reflexivity]. eapply minimal_chain; eauto.
      destruct Hs as (_ & Hb). eapply Forall_impl; [|exact Hb]. cbn. intros; lia.
  Qed.
End Chains.
