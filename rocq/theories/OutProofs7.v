(* The glossed output of parse trees: which nodes have brackets, and references to them. *)
From Coq Require Import String Ascii List NArith ZArith Bool Arith Lia.
From Verif Require Import Base TokData CmavoData TokModel StreamModel TreeModel TreeOutModel ErasureProofs GrammarData GramModel GramSpec
  GramProofs PassModel PassSpec PassProofs PassProofs2 ConnectModel ConnectSpec ConnectProofs ConnectProofs2.
From Verif Require Import OutModel OutSpec OutProofs OutProofs2 OutProofs3 OutProofs4.
Import TransModel(tctx).
Import ListNotations.
Open Scope string_scope.
Open Scope list_scope.

Lemma brackets_at rb t : forall p s q b n ch ty, asub (fst (add_bracketing rb p s t)) q = Some (ANT ty b n ch) ->
  b = brackets_of (rb (p ++ q)) ty (map bare ch).
Proof.
  induction t as [x|ty0 ch0 IH] using tree_induct; intros p s q b n ch ty H.
  - cbn [add_bracketing] in H. destruct (dat x); destruct q; discriminate H.
  - assert (BA := bare_add rb (NT ty0 ch0) p s). rewrite add_nt in H, BA. cbn zeta in H, BA. set (b0 := brackets_of (rb p) ty0 ch0) in *.
    destruct (add_kids rb p 0 ch0 _) as [ch' n'] eqn:E. cbn [fst] in H, BA. destruct q as [|i q].
    + inversion H; subst. cbn [bare] in BA. injection BA as BA. rewrite BA, app_nil_r. reflexivity.
    + cbn [asub] in H. destruct (nth_error ch' i) as [c|] eqn:N; [|discriminate H].
      assert (K : forall l i s a n k c, add_kids rb p i l s = (a, n) -> nth_error a k = Some c ->
                  exists d s', nth_error l k = Some d /\ c = fst (add_bracketing rb (p ++ [i + k]) s' d)).
      { clear. induction l as [|d l IHl]; intros i s a n k c H N; cbn [add_kids] in H.
        - inversion H; subst. destruct k; discriminate N.
        - destruct (add_bracketing rb (p ++ [i]) s d) as [c' s1] eqn:E1. destruct (add_kids rb p (S i) l s1) as [l' s2] eqn:E2.
          inversion H; subst. destruct k as [|k].
          + inversion N; subst. exists d, s. rewrite Nat.add_0_r, E1. auto.
          + destruct (IHl _ _ _ _ _ _ E2 N) as (d' & s' & N' & ->). exists d', s'. replace (i + S k) with (S i + k) by lia. auto. }
      destruct (K _ _ _ _ _ _ _ E N) as (d & s' & N' & ->). cbn [Nat.add] in H.
      rewrite Forall_forall in IH. rewrite (IH d (nth_error_In _ _ N') _ _ _ _ _ _ _ H), <- app_assoc. reflexivity.
Qed.

Section REFER.
  Variable rb : path -> bool.
  Variable t : tree.
  Hypothesis PT : parse_tree t.
  Let T := expand_bahe_ui t.
  Let top := add_bracketing_tags rb T.

  Lemma bracketed q ty ch : subtree T q = Some (NT ty ch) -> exists b n ch', asub top q = Some (ANT ty b n ch') /\ map bare ch' = ch /\
    b = brackets_of (rb q) ty ch /\ (b <> BR_NONE <-> n <> 0).
  Proof.
    intro E. rewrite <- (bare_tags rb T) in E. destruct (subtree_asub _ _ _ E) as ([y b n|ty' b n ch'] & A & B); inversion B; subst.
    exists b, n, ch'. split; [exact A|]. split; [reflexivity|]. split; [exact (brackets_at rb T [] 0 q b n ch' ty A)|].
    destruct (numbered rb T [] 0 q b n ch' ty A) as [[-> ->]|[N1 N2]]; split; intro; auto; congruence.
  Qed.

  (* the node that a relative clause is about *)
  Lemma about_kind g j k gch rc : subtree T g = Some (NT k gch) -> nth_error gch j = Some (NT "RELATIVE_CLAUSES" rc) ->
    forall b, about k j b -> k <> "SUMTI_TAIL" ->
    exists k' cc, subtree T (extend g b) = Some (NT k' cc) /\ brackets_of true k' cc = BR_CEIL.
  Proof.
    intros E N b AB NT'. assert (NA : k <> "AUGMENTED").
    { destruct AB as [->|i [->|[->| ->]] _|[->| ->]|[->| ->]]; discriminate. }
    pose proof (node_parsed t g _ _ PT E NA) as PN.
    assert (CE : forall k' cc, In k' ["SUMTI_5A"; "SUMTI_5B"; "NAME_SUMTI_6"; "SUMTI"; "SUMTI_1"; "FREE_VOCATIVE"; "SUMTI_TAIL_1A"] -> brackets_of true k' cc = BR_CEIL).
    { intros k' cc I. unfold brackets_of. cbn [In] in I.
      destruct I as [<-|[<-|[<-|[<-|[<-|[<-|[<-|[]]]]]]]]; cbn [String.eqb Ascii.eqb Bool.eqb one_of existsb orb]; rewrite ?orb_true_r; reflexivity. }
    assert (CH : forall i k' cc, nth_error gch i = Some (NT k' cc) -> subtree T (g ++ [i]) = Some (NT k' cc)).
    { intros i k' cc NI. rewrite (subtree_app T g [i]), E. cbn [subtree]. rewrite NI. reflexivity. }
    destruct AB as [->|i K ->|K|K]; cbn [extend].
    - destruct (clauses_shape (fun ss1 _ => match ss1 with SN k1 :: _ => String.eqb k1 "SUMTI_1" | _ => false end) _ gch j rc PN NA N ltac:(vm_compute; reflexivity))
        as (ss1 & ss2 & ch1 & ch2 & G & -> & L & F1 & F2).
      destruct ss1 as [|[k1|tk|tk] ss1]; try discriminate G. apply String.eqb_eq in G.
      subst k1. inversion F1; subst. eexists. eexists. split; [apply CH; reflexivity|]. apply CE. cbn; tauto.
    - assert (S : exists k' cc, nth_error gch i = Some (NT k' cc) /\ In k' ["SUMTI_5A"; "SUMTI_5B"; "SUMTI_TAIL_1A"]).
      { set (good := fun (ss1 : list sym) (_ : list sym) => match ss1 with [SN k'] => existsb (String.eqb k') ["SUMTI_5A"; "SUMTI_5B"; "SUMTI_TAIL_1A"] | _ => false end).
        assert (C : forallb (chk good "RELATIVE_CLAUSES" []) (alternatives k) = true) by (destruct K as [->|[->| ->]]; [vm_compute; reflexivity|vm_compute; reflexivity|contradiction]).
        destruct (clauses_shape good _ gch (S i) rc PN NA N C) as (ss1 & ss2 & ch1 & ch2 & G & -> & L & F1 & F2). unfold good in G.
        destruct ss1 as [|[k1|tk|tk] [|]]; try discriminate G. inversion F1 as [|a1 a2 a3 a4 F1' E1 E2| | |]; subst. inversion F1'; subst. cbn [List.length] in L. injection L as <-.
        exists k1, a3. split; [reflexivity|]. apply existsb_exists in G. destruct G as (z & Z & Q). apply String.eqb_eq in Q. subst z. exact Z. }
      destruct S as (k' & cc & NI & IN). exists k', cc. split; [exact (CH _ _ _ NI)|]. apply CE. clear - IN. cbn [In] in *. tauto.
    - set (good := fun (_ ss2 : list sym) => match ss2 with SN k' :: _ => String.eqb k' "SUMTI" | _ => false end).
      assert (C : forallb (chk good "RELATIVE_CLAUSES" []) (alternatives k) = true) by (destruct K as [->| ->]; vm_compute; reflexivity).
      destruct (clauses_shape good _ gch j rc PN NA N C) as (ss1 & ss2 & ch1 & ch2 & G & -> & L & F1 & F2). unfold good in G.
      destruct ss2 as [|[k1|tk|tk] ss2]; try discriminate G. apply String.eqb_eq in G. subst k1. inversion F2; subst.
      eexists. eexists. split; [apply CH; rewrite nth_error_app2 by lia; replace (S (List.length ch1) - List.length ch1) with 1 by lia; reflexivity|].
      apply CE. cbn; tauto.
    - exists k, gch. split; [exact E|]. apply CE. destruct K as [->| ->]; cbn; tauto.
  Qed.

  Variable P : props.
  Variable ws : list rwrite.
  Hypothesis RW : relative_clause_processing T = Ok ws.
  Hypothesis RL : forall p r, In (p, RelLink r) ws -> p_rel_clause_link P p = Some r.
  Hypothesis RA : forall r a, In (r, Antecedent a) ws -> p_antecedent P r = Some a.
  Hypothesis RB : forall q, In (q, RequireBrac) ws -> rb q = true.

  Theorem keha_number p x r g j k b : subtree T p = Some (Leaf x) -> is_keha x = true -> innermost "RELATIVE_CLAUSE" T p r ->
    group T r g j k -> about k j b -> k <> "SUMTI_TAIL" ->
    p_rel_clause_link P p = Some r /\ p_antecedent P r = Some (extend g b) /\
    exists ty n ch, asub top (extend g b) = Some (ANT ty BR_CEIL n ch) /\ n <> 0.
  Proof.
    intros E K I G AB NT'. destruct (parse_expand t PT) as [PE CE]. fold T in PE, CE.
    destruct (relative_parsed T PE CE) as (ws' & W' & IW). rewrite RW in W'. injection W' as <-.
    pose proof I as (i & rr & rch & EP & ER & _).
    assert (I1 : In (p, RelLink r) ws) by (apply IW; right; left; exists p, x, r; auto).
    assert (I2 : In (r, Antecedent (extend g b)) ws) by (apply IW; left; exists r, rch, g, j, k, b; auto).
    assert (I3 : In (extend g b, RequireBrac) ws) by (apply IW; left; exists r, rch, g, j, k, b; auto).
    split; [exact (RL _ _ I1)|]. split; [exact (RA _ _ I2)|].
    destruct G as [(i' & r' & rcch & Q & SRC & _) (gch & SG)].
    assert (N : nth_error gch j = Some (NT "RELATIVE_CLAUSES" rcch)).
    { rewrite (subtree_app T g [j]), SG in SRC. cbn [subtree] in SRC. destruct (nth_error gch j); [exact SRC|discriminate SRC]. }
    destruct (about_kind g j k gch rcch SG N b AB NT') as (k' & cc & SE' & BR).
    destruct (bracketed _ _ _ SE') as (br & n & ch' & A & _ & EB & NN). rewrite (RB _ I3), BR in EB. subst br.
    exists k', n, ch'. split; [exact A|]. apply NN. discriminate.
  Qed.
End REFER.
