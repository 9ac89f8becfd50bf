(* The shipped descriptions are accepted and the emitted tables are right. *)
From Coq Require Import String List NArith Lia.
From Verif Require Import Base Arr DfaModel NfaData DfaSpec DfaReadProofs DfaTables.
Import ListNotations.
Open Scope N_scope.

Lemma stag_generated : dfasyn stag_desc = Ok stag_tables.
Proof. vm_cast_no_check (eq_refl (Ok stag_tables)). Qed.

Lemma bc_generated : dfasyn bad_cmene_desc = Ok bc_tables.
Proof. vm_cast_no_check (eq_refl (Ok bc_tables)). Qed.

Lemma morf_generated : dfasyn morf_desc = Ok morf_tables.
Proof. vm_cast_no_check (eq_refl (Ok morf_tables)). Qed.

(* number of declared tokens *)
Definition ntok (ds : list decl) : N :=
  fold_left (fun n d => match d with DTokens l => n + N.of_nat (List.length l) | _ => n end) ds 0.

Lemma add_token_count : forall l t0 t', fold_left add_token_decl l t0 = Ok t' ->
  exists t, t0 = Ok t /\ List.length t' = (List.length t + List.length l)%nat.
Proof.
  induction l as [|x l IH]; intros t0 t' H; cbn [fold_left] in H.
  - exists t'. split; [exact H|cbn; lia].
  - destruct (IH _ _ H) as (t1 & E & L). unfold add_token_decl in E.
    destruct t0 as [t| | | |]; cbn [obind] in E; try discriminate.
    destruct (lookup_token t x 0); [discriminate|]. injection E as <-. exists t. split; [reflexivity|].
    rewrite app_length in L. cbn [List.length] in *. lia.
Qed.

Lemma read_decl_tokens : forall ds p0 p', fold_left read_decl ds p0 = Ok p' ->
  exists p, p0 = Ok p /\ forall k, N.of_nat (List.length (p_tokens p)) = k ->
    N.of_nat (List.length (p_tokens p')) =
    fold_left (fun n d => match d with DTokens l => n + N.of_nat (List.length l) | _ => n end) ds k.
Proof.
  induction ds as [|d ds IH]; intros p0 p' H; cbn [fold_left] in *.
  - exists p'. auto.
  - destruct (IH _ _ H) as (p1 & E & K). destruct p0 as [p| | | |]; cbn [read_decl obind] in E; try discriminate.
    exists p. split; [reflexivity|]. intros k Hk. apply K. destruct d as [l|n l|n i s|r|r].
    + destruct (fold_left add_token_decl l (Ok (p_tokens p))) as [t| | | |] eqn:Et; try discriminate.
      cbn [obind] in E. injection E as <-. apply add_token_count in Et. destruct Et as (t0 & E0 & L).
      injection E0 as <-. cbn [p_tokens]. lia.
    + injection E as <-. exact Hk.
    + unfold read_block in E. destruct (lookup_block (p_blocks p) n); [discriminate|].
      destruct (fold_left _ i (Ok create_block)); try discriminate. cbn [obind] in E.
      destruct (fold_left _ s _) as [[? ?]| | | |]; try discriminate. cbn [obind] in E. injection E as <-. exact Hk.
    + injection E as <-. exact Hk.
    + injection E as <-. exact Hk.
Qed.

Lemma read_ntok ds src : read_description ds = Ok src -> s_ntok src = ntok ds.
Proof.
  unfold read_description. destruct (fold_left read_decl ds _) as [p| | | |] eqn:E; try discriminate. cbn [obind].
  apply read_decl_tokens in E. destruct E as (p0 & E0 & K). injection E0 as <-.
  destruct (p_cur p) as [[bn i]|]; [|discriminate]. destruct (lookup_block (p_blocks p) bn); [|discriminate].
  intro H. injection H as <-. cbn [s_ntok]. apply K. reflexivity.
Qed.

(* a description whose tables fit the C types *)
Lemma dfasyn_sized ds tb : dfasyn ds = Ok tb ->
  ntok ds <= 256 -> N.of_nat (List.length (t_exit tb)) <= 32768 ->
  N.of_nat (List.length (t_exit tb)) * ntok ds <= 65535 ->
  exists src, read_description ds = Ok src /\
    forall w, exists o, run_tables tb (Some 0) w = Ok o /\ answers src tb w o.
Proof.
  intros H H1 H2 H3. destruct (dfasyn_ok ds tb H) as (src & Es & K). exists src. split; [exact Es|].
  rewrite (read_ntok ds src Es) in K. apply K; assumption.
Qed.

Lemma shipped : Forall (fun p => exists src, read_description (fst p) = Ok src /\
    forall w, exists o, run_tables (snd p) (Some 0) w = Ok o /\ answers src (snd p) w o)
  [(stag_desc, stag_tables); (bad_cmene_desc, bc_tables); (morf_desc, morf_tables)].
Proof.
  repeat apply Forall_cons; try apply Forall_nil; apply dfasyn_sized;
    try (apply stag_generated || apply bc_generated || apply morf_generated);
    apply N.leb_le; vm_compute; reflexivity.
Qed.
