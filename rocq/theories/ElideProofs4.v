(* The buffer in front of the stream. *)
From Coq Require Import String List NArith Bool Arith Sorted Lia.
From Verif Require Import Base TokData TokModel StreamModel StreamSpec ElideModel ElideSpec ElideProofs ElideProofs2 ElideProofs3.
Import ListNotations.
Open Scope list_scope.
Notation length := List.length.

Section Stream.
  Variable ts : list node.
  Hypothesis Hgood : Forall good ts.

  Definition inside (s : stream) : Prop := pos s <= length ts.
  Lemma lex_facts s s' r : inside s -> yylex1 ts s = (s', r) ->
    inside s' /\ snd r <> Stale /\ (eof s = false -> fst r <> None) /\
    (omissible r = true -> eof s = false /\ eof s' = false /\ pos s' = S (pos s)).
  Proof.
    unfold inside, yylex1. intros Hp H. destruct (eof s) eqn:Ee.
    - injection H as <- <-. repeat split; auto; try discriminate.
    - unfold ring_next in H. destruct (Nat.ltb_spec (pos s) (length ts)) as [Hlt|Hge].
      + cbn [at_pos] in H. destruct (nth_error ts (pos s)) as [x|] eqn:Ex; [|apply nth_error_None in Ex; lia].
        assert (Hg : good x) by (rewrite Forall_forall in Hgood; apply Hgood; eapply nth_error_In; eauto).
        destruct (value_of x) as [[v r']|] eqn:Ev.
        * injection H as <- <-. cbn [pos eof fst snd]. repeat split; auto; try discriminate.
          unfold value_of in Ev. destruct Hg as (G1 & G2). intros ->. destruct (dat x) eqn:Ed; try discriminate.
          -- exact (G1 _ eq_refl).
          -- destruct (tok_eqb selmao T_FAhO); discriminate.
          -- exact (G2 _ eq_refl).
        * injection H as <- <-. cbn [pos eof fst snd]. repeat split; auto; try discriminate.
      + cbn [at_pos] in H. injection H as <- <-. cbn [pos eof fst snd]. repeat split; auto; try discriminate; lia.
  Qed.

  Inductive ahead : stream -> list reply -> stream -> Prop :=
  | a_last s s' r : yylex1 ts s = (s', r) -> omissible r = false -> ahead s [r] s'
  | a_more s s' r g s'' : yylex1 ts s = (s', r) -> omissible r = true -> ahead s' g s'' -> ahead s (r :: g) s''.

  Definition remaining (s : stream) : nat := if eof s then 0 else length ts - pos s.
  Definition flags_ok (t : tokbuf) (g : list reply) (subs : list nat) : Prop :=
    forall i r, nth_error g i = Some r ->
      nth_error (t_flags t) i = Some (Flags (Some (quantifier_end r)) (Some (existsb (Nat.eqb i) subs)) (Some (number_marker r))).

  Lemma nth_snoc {A} (l : list A) a i y : nth_error (l ++ [a]) i = Some y -> (i < length l /\ nth_error l i = Some y) \/ (i = length l /\ y = a).
  Proof.
    intro H. destruct (Nat.lt_ge_cases i (length l)) as [Hlt|Hge].
    - rewrite nth_error_app1 in H by exact Hlt. auto.
    - rewrite nth_error_app2 in H by exact Hge. right. destruct (i - length l) as [|d] eqn:E; cbn in H; [split; [lia|congruence]|destruct d; discriminate].
  Qed.

  Lemma fill_ok : forall fuel s t given, inside s -> remaining s < fuel -> shape t -> t_n t = length given -> t_n t <= t_max t -> holds t given -> flags_ok t given [] ->
    exists t' s' g, fill fuel ts t s = Ok (t', s') /\ ahead s g s' /\ inside s' /\ shape t' /\ t_n t' = length given + length g /\ t_n t' <= t_max t' /\
      holds t' (given ++ g) /\ flags_ok t' (given ++ g) [] /\ t_rp t' = t_rp t /\ t_sp t' = t_sp t.
  Proof.
    induction fuel as [|fuel IH]; intros s t given Hin Hf Hsh Hn Hmax Hh Hfl; [lia|]. cbn [fill].
    set (t1 := if Nat.eqb (t_n t) (t_max t) then grow_buffer t else t).
    assert (H1 : shape t1 /\ t_n t1 = length given /\ t_n t1 < t_max t1 /\ holds t1 given /\ flags_ok t1 given [] /\ t_rp t1 = t_rp t /\ t_sp t1 = t_sp t).
    { unfold t1. destruct (Nat.eqb_spec (t_n t) (t_max t)) as [E|E].
      - split; [apply shape_grow; exact Hsh|]. cbn [grow_buffer t_n t_max t_rp t_sp]. split; [exact Hn|]. split; [lia|].
        destruct Hsh as (_ & Hlb & Hlf & _). split; [|split; [|split; reflexivity]].
        + intros i r Hi. cbn [grow_buffer t_buf]. rewrite nth_error_app1; [apply Hh; exact Hi|]. rewrite Hlb.
          assert (i < length given) by (apply nth_error_Some; congruence). lia.
        + intros i r Hi. cbn [grow_buffer t_flags]. rewrite nth_error_app1; [apply Hfl; exact Hi|]. rewrite Hlf.
          assert (i < length given) by (apply nth_error_Some; congruence). lia.
      - repeat split; try apply Hsh; auto. lia. }
    clearbody t1. destruct H1 as (Hsh1 & Hn1 & Hmax1 & Hh1 & Hfl1 & Hrp1 & Hsp1).
    destruct (yylex1 ts s) as [s' r] eqn:Ey. destruct (lex_facts s s' r Hin Ey) as (Hin' & Hst & Hval & Hom).
    pose proof Hsh1 as (Hq & Hlb & Hlf & Hlc & Hrows).
    destruct (set_ok (t_buf t1) (t_n t1) (Some r)) as (b & Eb & Hbl & Hbn); [lia|]. rewrite Eb. cbn [obind].
    rewrite (elidable_ok r Hst). cbn [obind fst snd]. rewrite marker_ok.
    destruct (set_ok (t_flags t1) (t_n t1) (Flags (Some (quantifier_end r)) (Some false) (Some (number_marker r)))) as (f & Ef & Hffl & Hfn); [lia|].
    rewrite Ef. cbn [obind].
    set (t2 := Tokbuf (S (t_n t1)) (t_max t1) (t_rp t1) (t_sp t1) b (t_conflicts t1) f).
    assert (Hsh2 : shape t2).
    { unfold shape, t2. cbn [t_max t_buf t_flags t_conflicts]. repeat split; auto; lia. }
    assert (Hh2 : holds t2 (given ++ [r])).
    { intros i y Hi. unfold t2. cbn [t_buf]. rewrite Hbn. apply nth_snoc in Hi. destruct Hi as [(Hi & Hy)|(-> & ->)].
      - destruct (Nat.eqb_spec i (t_n t1)); [lia|]. apply Hh1. exact Hy.
      - rewrite <- Hn1, Nat.eqb_refl. reflexivity. }
    assert (Hf2 : flags_ok t2 (given ++ [r]) []).
    { intros i y Hi. unfold t2. cbn [t_flags]. rewrite Hfn. apply nth_snoc in Hi. destruct Hi as [(Hi & Hy)|(-> & ->)].
      - destruct (Nat.eqb_spec i (t_n t1)); [lia|]. apply Hfl1. exact Hy.
      - rewrite <- Hn1, Nat.eqb_refl. reflexivity. }
    destruct (omissible r) eqn:Eo.
    - destruct (Hom eq_refl) as (E1 & E2 & E3).
      destruct (IH s' t2 (given ++ [r])) as (t' & s'' & g & Hfill & Ha & Hi' & Hs' & Hn' & Hm' & Hh' & Hf' & Hr' & Hsp'); auto.
      + unfold remaining in *. rewrite E1 in Hf. rewrite E2, E3. unfold inside in *. lia.
      + unfold t2. cbn [t_n]. rewrite app_length. cbn [length]. lia.
      + exists t', s'', (r :: g). split; [exact Hfill|]. split; [eapply a_more; eauto|]. rewrite <- app_assoc in Hh', Hf'. cbn [app] in Hh', Hf'.
        rewrite app_length in Hn'. cbn [length] in Hn' |- *. repeat split; auto; try apply Hs'; try lia.
        * rewrite Hr'. exact Hrp1.
        * rewrite Hsp'. exact Hsp1.
    - exists t2, s', [r]. split; [reflexivity|]. split; [constructor; assumption|]. split; [exact Hin'|]. split; [exact Hsh2|].
      unfold t2. cbn [t_n t_max t_rp t_sp length]. repeat split; auto; lia.
  Qed.

  Lemma ahead_group s g s' : ahead s g s' -> exists a z, g = a ++ [z] /\ Forall (fun r => omissible r = true) a /\ omissible z = false.
  Proof.
    induction 1 as [s s' r Hy Ho|s s' r g s'' Hy Ho Ha (a & z & -> & Hf & Hz)].
    - exists [], r. repeat split; auto.
    - exists (r :: a), z. repeat split; auto.
  Qed.
  Lemma ahead_values s g s' : inside s -> ahead s g s' -> (eof s = false -> Forall (fun r => fst r <> None) g) /\ Forall (fun r => fst r <> None) (tl g).
  Proof.
    intros Hin H. induction H as [s s' r Hy Ho|s s' r g s'' Hy Ho Ha IH].
    - destruct (lex_facts _ _ _ Hin Hy) as (_ & _ & Hv & _). split; [intro E; constructor; [auto|constructor]|constructor].
    - destruct (lex_facts _ _ _ Hin Hy) as (Hi & _ & Hv & Hom). destruct (Hom Ho) as (E1 & E2 & _). specialize (IH Hi).
      split; [intro E; constructor; [auto|apply IH; exact E2]|]. cbn. apply IH. exact E2.
  Qed.
  Lemma ahead_inside s g s' : inside s -> ahead s g s' -> inside s'.
  Proof. intros Hin H. induction H; [|apply IHahead]; eapply lex_facts; eauto. Qed.
End Stream.

Lemma complete_snoc g r : complete (g ++ [r]) = negb (omissible r).
Proof. induction g as [|a g IH]; [reflexivity|]. destruct g as [|b g]; [reflexivity|]. exact IH. Qed.
