From Coq Require Import List NArith Bool Arith Lia.
From Verif Require Import Base TokData TokModel StreamModel StreamSpec ErasureProofs.
Import ListNotations.

Lemma stops_spec c x : stops c (Some x) = true <-> boundary c x.
Proof.
  unfold stops, boundary. destruct (code_of x) as [s|].
  - rewrite orb_true_iff, existsb_exists. split.
    + intros [(t & Hin & He)|He].
      * apply tok_eqb_eq in He. subst t. exists s. split; [reflexivity|]. left. exact Hin.
      * destruct c as [c|]; [|discriminate]. apply tok_eqb_eq in He. subst c. exists s. auto.
    + intros (t & Ht & Hor). injection Ht as <-. destruct Hor as [Hin| ->].
      * left. exists s. split; [exact Hin|apply tok_eqb_refl].
      * right. apply tok_eqb_refl.
  - split; [discriminate|]. intros (t & Ht & _). discriminate.
Qed.

Lemma next_nth (ts : list node) p x rest : skipn p ts = x :: rest ->
  p < length ts /\ nth_error ts p = Some x /\ skipn (S p) ts = rest.
Proof.
  revert p. induction ts as [|y ts IH]; intros p H.
  - destruct p; discriminate.
  - destruct p as [|p].
    + cbn in H. injection H as -> ->. cbn. repeat split. lia.
    + cbn [skipn] in H. destruct (IH p H) as (A & B & C). cbn [length nth_error]. repeat split; [lia|exact B|exact C].
Qed.
Lemma skip_nil (ts : list node) p : p <= length ts -> skipn p ts = [] -> p = length ts.
Proof. intros Hp H. apply (f_equal (@length node)) in H. rewrite skipn_length in H. cbn in H. lia. Qed.

Lemma adv_spec ts c : forall rest p fuel, p <= length ts -> skipn p ts = rest -> length rest < fuel ->
  exists q, adv_loop fuel ts c (ring_next ts p) = Ok q /\ ring_prev ts q <= length ts /\
    skips c rest (skipn (ring_prev ts q) ts).
Proof.
  induction rest as [|x rest IH]; intros p fuel Hp Hs Hf.
  - apply skip_nil in Hs; [|exact Hp]. subst p. exists 0.
    unfold ring_next. rewrite Nat.ltb_irrefl. destruct fuel as [|f]; [cbn in Hf; lia|].
    cbn. repeat split; [lia|]. rewrite skipn_all. constructor.
  - destruct (next_nth _ _ _ _ Hs) as (Hl & Hn & Hr).
    unfold ring_next at 1. rewrite (proj2 (Nat.ltb_lt _ _) Hl).
    destruct fuel as [|f]; [cbn in Hf; lia|]. cbn [adv_loop at_pos]. rewrite Hn.
    destruct (stops c (Some x)) eqn:Es.
    + exists (S p). cbn [ring_prev]. repeat split; [lia|]. rewrite Hs. constructor. apply stops_spec. exact Es.
    + destruct (IH (S p) f) as (q & Hq & Hb & Hk); [lia|exact Hr|cbn in Hf; lia|].
      exists q. repeat split; [exact Hq|exact Hb|]. constructor; [|exact Hk].
      intro Hbd. apply stops_spec in Hbd. congruence.
Qed.

Lemma value_final x : value_of x = None <-> final x.
Proof.
  unfold value_of, final. destruct (dat x); split; try discriminate; try (intros (c' & f' & H); discriminate H).
  - destruct (tok_eqb selmao T_FAhO) eqn:E; [|discriminate]. apply tok_eqb_eq in E. subst. eauto.
  - intros (c' & f' & H). injection H as -> _ _. rewrite tok_eqb_refl. reflexivity.
Qed.
Lemma value_handed x v r : value_of x = Some (v, r) -> handed x (Some v, r).
Proof.
  unfold value_of, handed, value, good. destruct (dat x); intro H; cbn [fst snd];
    try (destruct (tok_eqb selmao T_FAhO); [discriminate|]);
    injection H as <- <-; (split; [reflexivity|]); split; try (intros; reflexivity); intro G.
  all: try (exfalso; apply G; split; intros; discriminate).
  - exfalso. apply (proj1 G _ eq_refl).
  - exfalso. apply (proj2 G _ eq_refl).
Qed.

Lemma eof_served ts : forall rs p, p <= length ts -> exists l, serve ts rs (Stream p true) = Ok l /\ given None rs l.
Proof.
  induction rs as [|[|c] rs IH]; intros p Hp; cbn [serve].
  - exists []. split; [reflexivity|constructor].
  - cbn [yylex1 eof]. destruct (IH p Hp) as (l & -> & Hg). exists (ended :: l). split; [reflexivity|]. constructor. exact Hg.
  - unfold error_advance. cbn [pos eof].
    destruct (adv_spec ts c _ p (length ts + 1) Hp eq_refl) as (q & Hq & Hb & _).
    { rewrite skipn_length. lia. }
    rewrite Hq. cbn [obind]. destruct (IH _ Hb) as (l & Hl & Hg). exists l. split; [exact Hl|]. constructor. exact Hg.
Qed.

Lemma served ts : forall rs p, p <= length ts ->
  exists l, serve ts rs (Stream p false) = Ok l /\ given (Some (skipn p ts)) rs l.
Proof.
  induction rs as [|[|c] rs IH]; intros p Hp; cbn [serve].
  - exists []. split; [reflexivity|constructor].
  - unfold yylex1. cbn [eof pos]. destruct (skipn p ts) as [|x rest] eqn:Es.
    + apply skip_nil in Es; [|exact Hp]. subst p. unfold ring_next. rewrite Nat.ltb_irrefl. cbn [at_pos].
      destruct (eof_served ts rs 0) as (l & Hl & Hg); [lia|]. rewrite Hl. exists (ending :: l).
      split; [reflexivity|]. constructor. exact Hg.
    + destruct (next_nth _ _ _ _ Es) as (Hl & Hn & Hr). unfold ring_next.
      rewrite (proj2 (Nat.ltb_lt _ _) Hl). cbn [at_pos]. rewrite Hn.
      destruct (value_of x) as [[v r]|] eqn:Ev.
      * destruct (IH (S p)) as (l & -> & Hg); [lia|]. exists ((Some v, r) :: l). split; [reflexivity|].
        rewrite Hr in Hg. apply g_token; [|apply value_handed; exact Ev|exact Hg].
        intro Hf. apply value_final in Hf. congruence.
      * destruct (eof_served ts rs (S p)) as (l & -> & Hg); [lia|]. exists (ending :: l). split; [reflexivity|].
        apply g_final; [apply value_final; exact Ev|exact Hg].
  - unfold error_advance. cbn [pos eof].
    destruct (adv_spec ts c _ p (length ts + 1) Hp eq_refl) as (q & Hq & Hb & Hk).
    { rewrite skipn_length. lia. }
    rewrite Hq. cbn [obind]. destruct (IH _ Hb) as (l & Hl & Hg). exists l. split; [exact Hl|].
    eapply g_advance; [exact Hk|exact Hg].
Qed.
Lemma serve_given ts rs : exists l, serve ts rs stream0 = Ok l /\ given (Some ts) rs l.
Proof. exact (served ts rs 0 (Nat.le_0_l _)). Qed.

Lemma part_skip {A} (l r r' : list A) x : part_of l r -> r' = x :: r -> part_of l r'.
Proof. intros H ->. constructor. exact H. Qed.
Lemma skips_up c rest rest' : skips c rest rest' -> forall u, up_to_final rest u -> exists u', up_to_final rest' u' /\ forall l, part_of l u' -> part_of l u.
Proof.
  induction 1 as [|x l Hb|x l r Hn Hs IH]; intros u Hu.
  - exists u. auto.
  - exists u. auto.
  - inversion Hu as [|? ? Hf|? ? u0 Hnf Hu0]; subst.
    + exfalso. apply Hn. destruct Hf as (cd & f & Hd). exists T_FAhO. unfold code_of. rewrite Hd. split; [reflexivity|]. left. cbn. tauto.
    + destruct (IH _ Hu0) as (u' & Hu' & Hp). exists u'. split; [exact Hu'|]. intros k Hk. constructor. apply Hp. exact Hk.
Qed.
Lemma good_dec x : {good x} + {~ good x}.
Proof.
  unfold good. destruct (dat x); try (left; split; intros; discriminate).
  - right. intros (H & _). exact (H _ eq_refl).
  - right. intros (_ & H). exact (H _ eq_refl).
Qed.
Lemma given_none_nodes rs l : given None rs l -> nodes_of l = [].
Proof.
  intro H. remember None as o eqn:Eo. induction H; try discriminate; auto.
  all: cbn; apply IHgiven; exact Eo.
Qed.
Lemma given_part o rs l : given o rs l -> forall ts u, o = Some ts -> up_to_final ts u -> part_of (nodes_of l) u.
Proof.
  induction 1 as [rest|rs l H IH|x rest rs l Hf H IH|x rest r rs l Hn Hh H IH|c rest rest' rs l Hk H IH|rs l H IH|c rs l H IH];
    intros ts u Eo Hu; try discriminate.
  - constructor.
  - cbn. rewrite (given_none_nodes _ _ H). constructor.
  - cbn. rewrite (given_none_nodes _ _ H). constructor.
  - injection Eo as <-. inversion Hu as [|? ? Hf|? ? u0 Hnf Hu0]; subst; [contradiction|].
    specialize (IH _ _ eq_refl Hu0). destruct r as [v [|y|]]; cbn [nodes_of].
    + constructor. exact IH.
    + destruct Hh as (Hv & Hg & Hb). cbn in Hv, Hg, Hb. destruct (good_dec x) as [G|G].
      * specialize (Hg G). injection Hg as ->. constructor. exact IH.
      * specialize (Hb G). discriminate.
    + constructor. exact IH.
  - injection Eo as <-. destruct (skips_up _ _ _ Hk _ Hu) as (u' & Hu' & Hp). apply Hp. exact (IH _ _ eq_refl Hu').
Qed.

Lemma up_exists ts : exists u, up_to_final ts u.
Proof.
  induction ts as [|x ts (u & Hu)].
  - exists []. constructor.
  - destruct (value_of x) eqn:E.
    + exists (x :: u). constructor; [|exact Hu]. intro Hf. apply value_final in Hf. congruence.
    + exists []. constructor. apply value_final. exact E.
Qed.

Lemma given_ended k l : given None (repeat Lex k) l -> l = repeat ended k.
Proof.
  revert l. induction k as [|k IH]; intros l H; cbn [repeat] in *; inversion H; subst; [reflexivity|]. f_equal. apply IH. assumption.
Qed.
Lemma given_all ts u : up_to_final ts u -> forall k l, given (Some ts) (repeat Lex (length u + S k)) l ->
  exists us, Forall2 handed u us /\ l = us ++ ending :: repeat ended k.
Proof.
  induction 1 as [|x ts Hf|x ts u Hn Hu IH]; intros k l H; cbn [length Nat.add repeat] in H.
  - inversion H; subst. exists []. split; [constructor|]. cbn. f_equal. apply given_ended. assumption.
  - inversion H; subst; [|contradiction]. exists []. split; [constructor|]. cbn. f_equal. apply given_ended. assumption.
  - inversion H as [|? ? ?|? ? ? ? Hf|? ? r ? l' Hn' Hh Hg| | |]; subst; [contradiction|].
    destruct (IH k l' Hg) as (us & Hus & ->). exists (r :: us). split; [constructor; assumption|]. reflexivity.
Qed.
Lemma serve_all ts u k : up_to_final ts u ->
  exists us, Forall2 handed u us /\ serve ts (repeat Lex (length u + S k)) stream0 = Ok (us ++ ending :: repeat ended k).
Proof.
  intro Hu. destruct (serve_given ts (repeat Lex (length u + S k))) as (l & Hl & Hg).
  destruct (given_all ts u Hu k l Hg) as (us & Hus & ->). exists us. split; assumption.
Qed.
Lemma serve_part ts rs u : up_to_final ts u -> exists l, serve ts rs stream0 = Ok l /\ part_of (nodes_of l) u.
Proof.
  intro Hu. destruct (serve_given ts rs) as (l & Hl & Hg). exists l. split; [exact Hl|]. eapply given_part; eauto.
Qed.
