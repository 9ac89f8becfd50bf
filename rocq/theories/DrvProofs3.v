(* The two TeX drivers. *)
From Coq Require Import String Ascii List NArith ZArith Bool Arith Lia.
From Verif Require Import Base TreeModel OutModel DrvModel DrvSpec DrvProofs.
From Verif Require TransModel.
Import ListNotations.
Local Open Scope string_scope.

(* ---- escapes ---- *)

Lemma texsafe_shown s : no_command s = true -> tex_shown (texsafe s) = s.
Proof.
  induction s as [|c s IH]; intros H; [reflexivity|]. cbn [no_command] in H. apply andb_prop in H. destruct H as [C H].
  specialize (IH H). destruct c as [[] [] [] [] [] [] [] []];
    first [discriminate C|cbn [texsafe tex_escaped tex_math tex_shown]; now rewrite IH].
Qed.

Definition level (o : string) : Prop := forall d rest, depth d (o ++ rest) = depth d rest.
Definition still (o : string) : Prop := forall rest, quiet false (o ++ rest) = quiet false rest.
(* the text keeps TeX in order *)
Definition tidy (o : string) : Prop := level o /\ still o.
Lemma tidy_app a b : tidy a -> tidy b -> tidy (a ++ b).
Proof. intros [A1 A2] [B1 B2]. split; [intros d rest|intros rest]; rewrite sapp_assoc; [now rewrite A1, B1|now rewrite A2, B2]. Qed.
Lemma tidy_nil : tidy "". Proof. split; [now intros d rest|now intros rest]. Qed.
Ltac tidy_lit := split; [intros ? ?; reflexivity|intros ?; reflexivity].

Lemma inert_tidy s : inert s = true -> tidy s.
Proof.
  induction s as [|c s IH]; intros H; [apply tidy_nil|]. cbn [inert] in H. apply andb_prop in H. destruct H as [C H].
  destruct (IH H) as [L S]. split; [intros d rest|intros rest]; cbn [append];
    (destruct c as [[] [] [] [] [] [] [] []]; first [discriminate C|exact (L d rest)|exact (S rest)]).
Qed.
Lemma texsafe_tidy s : no_command s = true -> tidy (texsafe s).
Proof.
  induction s as [|c s IH]; intros H; [apply tidy_nil|]. cbn [no_command] in H. apply andb_prop in H. destruct H as [C H].
  destruct (IH H) as [L S]. split; [intros d rest|intros rest];
    (destruct c as [[] [] [] [] [] [] [] []]; first [discriminate C|exact (L d rest)|exact (S rest)]).
Qed.
Lemma texsafe_length s : String.length (texsafe s) <= String.length (s ++ s ++ s).
Proof.
  rewrite !slen_app. induction s as [|c s IH]; [cbn [texsafe String.length]; lia|].
  cbn [texsafe]. destruct (tex_escaped c); [|destruct (tex_math c)]; cbn [String.length]; lia.
Qed.
Lemma make_texsafe_ok s : short (s ++ s ++ s) -> make_texsafe s = Ok (texsafe s).
Proof.
  intros H. unfold short in H. unfold make_texsafe, put. pose proof (texsafe_length s).
  assert ((N.of_nat (String.length (texsafe s)) <? 65536)%N = true) as ->; [|reflexivity]. apply N.ltb_lt. lia.
Qed.

Lemma digits_inert : forall f n acc, inert acc = true -> inert (TransModel.digits f n acc) = true.
Proof.
  induction f as [|f IH]; intros n acc H; [exact H|]. cbn [TransModel.digits].
  assert (K : inert (String (ascii_of_N (48 + N.modulo n 10)) acc) = true).
  { assert (L : (N.modulo n 10 < 10)%N) by (apply N.mod_lt; discriminate).
    remember (N.modulo n 10) as r eqn:Er. clear Er IH.
    cbn [inert]. rewrite H, andb_true_r.
    assert (E : (r = 0 \/ r = 1 \/ r = 2 \/ r = 3 \/ r = 4 \/ r = 5 \/ r = 6 \/ r = 7 \/ r = 8 \/ r = 9)%N) by lia.
    repeat (destruct E as [->|E]; [reflexivity|]). subst r. reflexivity. }
  destruct (N.eqb (N.div n 10) 0); [exact K|]. now apply IH.
Qed.
Lemma zdec_tidy n : inert (TransModel.zdec (Z.of_nat n)) = true.
Proof. destruct n as [|n]; [reflexivity|]. cbn [Z.of_nat TransModel.zdec]. now apply digits_inert. Qed.

(* something tidy inside groups *)
Lemma group_tidy a k b : (forall r, level r -> level (a ++ r ++ b)) -> (forall r, still r -> still (a ++ r ++ b)) -> tidy k -> tidy (a ++ k ++ b).
Proof. intros A B [L S]. split; auto. Qed.
Ltac grouped :=
  apply group_tidy; [let r := fresh in let Hr := fresh in intros r Hr ? ?; rewrite !sapp_assoc; etransitivity; [exact (Hr _ _)|reflexivity]
                    |let r := fresh in let Hr := fresh in intros r Hr ?; rewrite !sapp_assoc; etransitivity; [exact (Hr _)|reflexivity]|].

(* in a formula the number is just as quiet *)
Lemma number_quiet k : inert k = true -> forall f rest, quiet f (k ++ rest) = quiet f rest.
Proof.
  induction k as [|c k IH]; intros H f rest; [reflexivity|]. cbn [inert] in H. apply andb_prop in H. destruct H as [C H].
  specialize (IH H f rest). cbn [append]. destruct c as [[] [] [] [] [] [] [] []]; first [discriminate C|exact IH].
Qed.
Lemma number_level k : inert k = true -> forall d rest, depth d (k ++ rest) = depth d rest.
Proof. intros H. exact (proj1 (inert_tidy k H)). Qed.
Lemma latex_sub_tidy n : tidy (latex_sub n).
Proof.
  unfold latex_sub. pose proof (zdec_tidy n) as K. split.
  - intros d rest. rewrite !sapp_assoc. etransitivity; [exact (number_level _ K (S (S d)) _)|reflexivity].
  - intros rest. rewrite !sapp_assoc. etransitivity; [exact (number_quiet _ K true _)|reflexivity].
Qed.
Lemma blk_sub_tidy n : tidy (blk_sub n).
Proof.
  unfold blk_sub. pose proof (zdec_tidy n) as K. split.
  - intros d rest. rewrite !sapp_assoc. etransitivity; [exact (number_level _ K (S (S d)) _)|reflexivity].
  - intros rest. rewrite !sapp_assoc. etransitivity; [exact (number_quiet _ K true _)|reflexivity].
Qed.

Lemma latex_open_tidy b n : tidy (latex_open b n).
Proof. destruct b; cbn [latex_open]; try apply tidy_nil; (apply tidy_app; [tidy_lit|]; apply tidy_app; [apply latex_sub_tidy|tidy_lit]). Qed.
Lemma latex_close_tidy b n : tidy (latex_close b n).
Proof. destruct b; cbn [latex_close]; try apply tidy_nil; (apply tidy_app; [tidy_lit|]; apply tidy_app; [apply latex_sub_tidy|tidy_lit]). Qed.
Lemma blk_open_tidy b n : tidy (blk_open b n).
Proof. destruct b; cbn [blk_open]; try apply tidy_nil; (apply tidy_app; [tidy_lit|]; apply tidy_app; [apply blk_sub_tidy|tidy_lit]). Qed.
Lemma blk_close_tidy b n : tidy (blk_close b n).
Proof. destruct b; cbn [blk_close]; try apply tidy_nil; (apply tidy_app; [tidy_lit|]; apply tidy_app; [apply blk_sub_tidy|tidy_lit]). Qed.
Lemma before_tidy g d : inert g = true -> tidy (before_text g d).
Proof. intros H. unfold before_text. destruct (d_state d); try apply tidy_nil; now apply inert_tidy. Qed.
Lemma before_close_tidy d : tidy (before_close d).
Proof. unfold before_close. destruct (d_state d); try apply tidy_nil; tidy_lit. Qed.
Lemma latex_special_tidy s : tidy (latex_special s).
Proof. unfold latex_special. destruct (_ =? _)%string; [tidy_lit|]. destruct (_ =? _)%string; [tidy_lit|]. destruct (_ =? _)%string; [tidy_lit|apply tidy_nil]. Qed.
Lemma latex_eols_tidy n : tidy (latex_eols n).
Proof. unfold latex_eols. destruct (Nat.ltb 1 n); tidy_lit. Qed.

Lemma sign_special s : special s = false -> sign_of "" "" "" s = None.
Proof. intros H. now rewrite special_sign, H. Qed.

Lemma latex_step_tidy d c : tex_ok c -> exists o d', latex_step d c = Ok (o, d') /\ tidy o.
Proof.
  intros OK. destruct c as [br n|br n|n|s|s| | | |bv pl tr brac|s]; cbn [latex_step tex_ok] in *.
  - destruct (clear_eols latex_eols d) as [e d2] eqn:C. destruct (clear_spec _ _ _ _ C) as [F X].
    eexists _, _. split; [reflexivity|]. apply tidy_app; [destruct X as [[-> _]|[[k ->] _]]; [apply tidy_nil|apply latex_eols_tidy]|].
    apply tidy_app; [now apply before_tidy|apply latex_open_tidy].
  - eexists _, _. split; [reflexivity|]. apply tidy_app; [apply before_close_tidy|apply latex_close_tidy].
  - eexists _, _. split; [reflexivity|apply tidy_nil].
  - eexists _, _. split; [reflexivity|]. apply tidy_app; [now apply before_tidy|]. grouped. now apply inert_tidy.
  - destruct (special s) eqn:SP.
    + eexists _, _. split; [reflexivity|]. apply tidy_app; [now apply before_tidy|apply latex_special_tidy].
    + rewrite (sign_special _ SP) in OK. destruct OK as [N L]. rewrite make_texsafe_ok by exact L. cbn [obind].
      eexists _, _. split; [reflexivity|]. apply tidy_app; [now apply before_tidy|]. grouped. now apply texsafe_tidy.
  - eexists _, _. split; [reflexivity|tidy_lit].
  - eexists _, _. split; [reflexivity|tidy_lit].
  - eexists _, _. split; [reflexivity|]. unfold unless_first. destruct (d_first d); tidy_lit.
  - destruct OK as (A & B & N & L). rewrite make_texsafe_ok by exact L. cbn [obind].
    eexists _, _. split; [reflexivity|].
    assert (K : tidy ((bv ++ pl) ++ (if brac then " (" ++ texsafe tr ++ ")" else " " ++ texsafe tr))).
    { apply tidy_app; [apply tidy_app; now apply inert_tidy|]. pose proof (texsafe_tidy _ N).
      destruct brac; [apply tidy_app; [tidy_lit|apply tidy_app; [assumption|tidy_lit]]|apply tidy_app; [tidy_lit|assumption]]. }
    rewrite sapp_assoc in K. revert K. generalize (if brac then " (" ++ texsafe tr ++ ")" else " " ++ texsafe tr). intros z K.
    replace (bv ++ pl ++ z ++ "}" ++ nl) with ((bv ++ pl ++ z) ++ "}" ++ nl) by (now rewrite !sapp_assoc). grouped. exact K.
  - eexists _, _. split; [reflexivity|]. grouped. now apply inert_tidy.
Qed.
Lemma latex_run : forall cs d, Forall tex_ok cs -> exists o d', run latex_step d cs = Ok (o, d') /\ tidy o.
Proof.
  induction cs as [|c cs IH]; intros d F; [exists "", d; split; [reflexivity|apply tidy_nil]|].
  inversion F as [|c' cs' OK F']; subst. destruct (latex_step_tidy d c OK) as (o1 & d1 & E & T1).
  destruct (IH d1 F') as (o2 & d2 & R & T2). exists (o1 ++ o2), d2. split; [cbn [run]; rewrite E; cbn [obind]; rewrite R; reflexivity|now apply tidy_app].
Qed.
Theorem latex_tidy cs : Forall tex_ok cs -> exists out, print_latex cs = Ok out /\ depth 0 out = Some 0 /\ quiet false out = true.
Proof.
  intros F. destruct (latex_run cs initialise F) as (o & d' & R & L & S).
  exists (latex_prologue ++ o ++ latex_epilogue). split; [unfold print_latex, print_with; rewrite R; reflexivity|].
  split; [etransitivity; [exact (L _ _)|reflexivity]|etransitivity; [exact (S _)|reflexivity]].
Qed.

(* ---- blocks: tidy ---- *)

Lemma tag_lines_app a b : tag_lines (a ++ b) = tag_lines a ++ tag_lines b.
Proof. induction a as [|c a IH]; [reflexivity|]. cbn [append tag_lines]. now rewrite IH, sapp_assoc. Qed.
(* inside one group *)
Definition lined (s : string) : Prop :=
  (forall d rest, depth (S d) (tag_lines s ++ rest) = depth (S d) rest) /\ (forall rest, quiet false (tag_lines s ++ rest) = quiet false rest).
Lemma lined_app a b : lined a -> lined b -> lined (a ++ b).
Proof. intros [A1 A2] [B1 B2]. split; [intros d rest|intros rest]; rewrite tag_lines_app, sapp_assoc; [now rewrite A1, B1|now rewrite A2, B2]. Qed.
Lemma lined_nil : lined "". Proof. split; [now intros d rest|now intros rest]. Qed.
Ltac lined_lit := split; [intros ? ?; reflexivity|intros ?; reflexivity].
Lemma inert_lined s : inert s = true -> lined s.
Proof.
  induction s as [|c s IH]; intros H; [apply lined_nil|]. cbn [inert] in H. apply andb_prop in H. destruct H as [C H].
  change (String c s) with (String c "" ++ s). apply lined_app; [|now apply IH].
  split; [intros d rest|intros rest]; (destruct c as [[] [] [] [] [] [] [] []]; first [discriminate C|reflexivity]).
Qed.
Lemma texsafe_lined s : no_command s = true -> lined (texsafe s).
Proof.
  induction s as [|c s IH]; intros H; [apply lined_nil|]. cbn [no_command] in H. apply andb_prop in H. destruct H as [C H].
  specialize (IH H).
  destruct (tex_escaped c) eqn:E.
  { change (texsafe (String c s)) with (if tex_escaped c then String "\" (String c (texsafe s)) else if tex_math c then String "$" (String c (String "$" (texsafe s))) else String c (texsafe s)).
    rewrite E. change (String "\" (String c (texsafe s))) with (String "\" (String c "") ++ texsafe s). apply lined_app; [|exact IH].
    split; [intros d rest|intros rest]; (destruct c as [[] [] [] [] [] [] [] []]; first [discriminate E|reflexivity]). }
  destruct (tex_math c) eqn:M.
  { cbn [texsafe]. rewrite E, M. change (String "$" (String c (String "$" (texsafe s)))) with (String "$" (String c "$") ++ texsafe s). apply lined_app; [|exact IH].
    split; [intros d rest|intros rest]; (destruct c as [[] [] [] [] [] [] [] []]; first [discriminate M|reflexivity]). }
  cbn [texsafe]. rewrite E, M. change (String c (texsafe s)) with (String c "" ++ texsafe s). apply lined_app; [|exact IH].
  split; [intros d rest|intros rest]; (destruct c as [[] [] [] [] [] [] [] []]; first [discriminate C|discriminate E|discriminate M|reflexivity]).
Qed.

Definition ready (d : drv) : Prop := tidy (d_loj d) /\ tidy (d_eng d) /\ lined (d_tag d).
Lemma block_tidy d : ready d -> tidy (block d).
Proof.
  intros ([L1 S1] & [L2 S2] & L3 & S3). unfold block. split.
  - intros k rest. rewrite !sapp_assoc.
    etransitivity; [exact (L1 (S k) _)|]. etransitivity; [exact (L2 (S k) _)|]. etransitivity; [exact (L3 k _)|reflexivity].
  - intros rest. rewrite !sapp_assoc.
    etransitivity; [exact (S1 _)|]. etransitivity; [exact (S2 _)|]. etransitivity; [exact (S3 _)|reflexivity].
Qed.
Lemma ready_flushed d : ready (set_tag (set_loj (set_eng d "") "") "").
Proof. split; [apply tidy_nil|]. split; [apply tidy_nil|apply lined_nil]. Qed.
Lemma flush_some_tidy d : ready d -> tidy (fst (flush_some d)) /\ ready (snd (flush_some d)).
Proof. intros R. unfold flush_some. destruct (_ || _); [split; [now apply block_tidy|apply ready_flushed]|split; [apply tidy_nil|exact R]]. Qed.
Lemma blk_clear_tidy d : ready d -> tidy (fst (clear_eols blk_eols d)) /\ ready (snd (clear_eols blk_eols d)).
Proof.
  intros R. unfold clear_eols. destruct (d_eols d) as [|n]; [split; [apply tidy_nil|exact R]|]. split; [|exact R].
  cbn [fst]. unfold blk_eols. destruct (Nat.ltb 1 (S n)); tidy_lit.
Qed.
Lemma put_inv n s o : put n s = Ok o -> o = s.
Proof. unfold put. destruct (N.ltb _ _); [now injection 1|discriminate 1]. Qed.

Lemma blk_step_tidy d c o d' : tex_ok c -> ready d -> blk_step d c = Ok (o, d') -> tidy o /\ ready d'.
Proof.
  intros OK R H. pose proof (flush_some_tidy d R) as FS. destruct (flush_some d) as [fo fd] eqn:FE. cbn [fst snd] in FS. destruct FS as [TF RF].
  destruct c as [br n|br n|n|s|s| | | |bv pl tr brac|s]; cbn [blk_step tex_ok] in *.
  - destruct (match br with BR_NONE => true | _ => false end) eqn:NB.
    { destruct br; try discriminate NB. injection H as <- <-. split; [apply tidy_nil|exact R]. }
    assert (H' : (let (o1, d) := flush_some d in let (o2, d) := clear_eols blk_eols d in
      Ok (o1 ++ o2 ++ before_text " " d ++ blk_open br n, set_state d ST_OPEN)) = Ok (o, d')) by (destruct br; [discriminate NB|exact H..]).
    rewrite FE in H'. pose proof (blk_clear_tidy fd RF) as CS. destruct (clear_eols blk_eols fd) as [co cd]. cbn [fst snd] in CS. destruct CS as [TC RC].
    injection H' as <- <-. split; [|exact RC]. apply tidy_app; [exact TF|]. apply tidy_app; [exact TC|]. apply tidy_app; [now apply before_tidy|apply blk_open_tidy].
  - destruct (match br with BR_NONE => true | _ => false end) eqn:NB.
    { destruct br; try discriminate NB. injection H as <- <-. split; [apply tidy_nil|exact R]. }
    assert (H' : (let (o, d) := flush_some d in Ok (o ++ before_close d ++ blk_close br n, set_state d ST_CLOSE)) = Ok (o, d')) by (destruct br; [discriminate NB|exact H..]).
    rewrite FE in H'. injection H' as <- <-. split; [|exact RF]. apply tidy_app; [exact TF|]. apply tidy_app; [apply before_close_tidy|apply blk_close_tidy].
  - injection H as <- <-. split; [apply tidy_nil|exact R].
  - assert (K : tidy (fst (if full (d_eng d) then flush_block d else ("", d))) /\ ready (snd (if full (d_eng d) then flush_block d else ("", d)))).
    { destruct (full (d_eng d)); [split; [now apply block_tidy|apply ready_flushed]|split; [apply tidy_nil|exact R]]. }
    destruct (if full (d_eng d) then flush_block d else ("", d)) as [o1 d1]. cbn [fst snd] in K. destruct K as [T1 R1].
    pose proof (blk_clear_tidy d1 R1) as CS. destruct (clear_eols blk_eols d1) as [co cd]. cbn [fst snd] in CS. destruct CS as [TC RC].
    destruct (blk_put (d_loj cd ++ " " ++ s)) as [l| | | |] eqn:P; try discriminate H. cbn [obind] in H. injection H as <- <-.
    apply put_inv in P. subst l. split; [now apply tidy_app|]. destruct RC as (A & B & C). split; [|split; assumption].
    cbn [set_loj d_loj]. apply tidy_app; [exact A|]. apply tidy_app; [tidy_lit|now apply inert_tidy].
  - destruct R as (A & B & C). destruct (special s) eqn:SP.
    + destruct (blk_put _) as [e| | | |] eqn:P; try discriminate H. cbn [obind] in H. injection H as <- <-. apply put_inv in P. subst e.
      split; [apply tidy_nil|]. split; [exact A|]. split; [|exact C]. cbn [set_eng d_eng]. apply tidy_app; [exact B|apply latex_special_tidy].
    + rewrite (sign_special _ SP) in OK. destruct OK as [N L]. rewrite make_texsafe_ok in H by exact L. cbn [obind] in H.
      destruct (blk_put _) as [e| | | |] eqn:P; try discriminate H. cbn [obind] in H. injection H as <- <-. apply put_inv in P. subst e.
      split; [apply tidy_nil|]. split; [exact A|]. split; [|exact C]. cbn [set_eng d_eng]. apply tidy_app; [exact B|]. apply tidy_app; [tidy_lit|now apply texsafe_tidy].
  - rewrite FE in H. pose proof (blk_clear_tidy fd RF) as CS. destruct (clear_eols blk_eols fd) as [co cd]. cbn [fst snd] in CS. destruct CS as [TC RC].
    destruct (blk_put _) as [e| | | |] eqn:P; try discriminate H. cbn [obind] in H. injection H as <- <-. apply put_inv in P. subst e.
    split; [now apply tidy_app|]. destruct RC as (A & B & C). split; [exact A|]. split; [exact B|]. cbn [set_first set_tag d_tag]. apply lined_app; [exact C|lined_lit].
  - destruct R as (A & B & C). destruct (blk_put _) as [e| | | |] eqn:P; try discriminate H. cbn [obind] in H. injection H as <- <-. apply put_inv in P. subst e.
    split; [apply tidy_nil|]. split; [exact A|]. split; [exact B|]. cbn [set_first set_tag d_tag]. apply lined_app; [exact C|lined_lit].
  - destruct R as (A & B & C). destruct (blk_put _) as [e| | | |] eqn:P; try discriminate H. cbn [obind] in H. injection H as <- <-. apply put_inv in P. subst e.
    split; [apply tidy_nil|]. split; [exact A|]. split; [exact B|]. cbn [set_first set_tag d_tag]. apply lined_app; [exact C|].
    unfold unless_first. destruct (d_first d); lined_lit.
  - destruct R as (A & B & C). destruct OK as (O1 & O2 & N & L). rewrite make_texsafe_ok in H by exact L. cbn [obind] in H.
    destruct (blk_put (bv ++ _)) as [e| | | |] eqn:P; try discriminate H. cbn [obind] in H. apply put_inv in P.
    destruct (blk_put _) as [e'| | | |] eqn:P'; try discriminate H. cbn [obind] in H. injection H as <- <-. apply put_inv in P'. subst e'.
    split; [apply tidy_nil|]. split; [exact A|]. split; [exact B|]. cbn [set_tag d_tag]. apply lined_app; [exact C|].
    apply lined_app; [destruct (d_tag d) as [|? [|]]; lined_lit|]. subst e. apply lined_app; [now apply inert_lined|]. apply lined_app; [now apply inert_lined|].
    pose proof (texsafe_lined _ N). destruct brac; (apply lined_app; [lined_lit|]); [apply lined_app; [assumption|lined_lit]|assumption].
  - destruct R as (A & B & C).
    destruct (blk_put s) as [e| | | |] eqn:P; try discriminate H. cbn [obind] in H. apply put_inv in P. subst e.
    destruct (blk_put _) as [e'| | | |] eqn:P'; try discriminate H. cbn [obind] in H. injection H as <- <-. apply put_inv in P'. subst e'.
    split; [apply tidy_nil|]. split; [exact A|]. split; [exact B|]. cbn [set_tag d_tag]. apply lined_app; [exact C|].
    apply lined_app; [destruct (d_tag d) as [|? [|]]; lined_lit|now apply inert_lined].
Qed.
Theorem blk_tidy cs out : Forall tex_ok cs -> print_latex_block cs = Ok out -> depth 0 out = Some 0 /\ quiet false out = true.
Proof.
  intros F H. unfold print_latex_block, print_with in H. destruct (run blk_step initialise cs) as [[o d']| | | |] eqn:R; try discriminate H.
  cbn [obind] in H. injection H as <-.
  assert (K : tidy o).
  { assert (G : ready initialise) by (split; [apply tidy_nil|split; [apply tidy_nil|apply lined_nil]]).
    revert G R. generalize initialise. revert o d'. induction cs as [|c cs IH]; intros o d' d G R; cbn [run] in R.
    - injection R as <- <-. apply tidy_nil.
    - inversion F as [|c' cs' OK F']; subst. destruct (blk_step d c) as [[o1 d1]| | | |] eqn:E; try discriminate R. cbn [obind] in R.
      destruct (run blk_step d1 cs) as [[o2 d2]| | | |] eqn:E2; try discriminate R. cbn [obind] in R. injection R as <- <-.
      destruct (blk_step_tidy _ _ _ _ OK G E) as [T1 R1]. apply tidy_app; [exact T1|]. exact (IH F' _ _ _ R1 E2). }
  destruct K as [L S]. split; [etransitivity; [exact (L _ _)|reflexivity]|etransitivity; [exact (S _)|reflexivity]].
Qed.

(* ---- blocks: nothing is lost before the last bracket ---- *)

Lemma texsafe_escape s : texsafe s = tex_escape s.
Proof.
  induction s as [|c s IH]; [reflexivity|]. unfold tex_escape in *. cbn [list_ascii_of_string map joined fold_right]. unfold joined in IH. rewrite <- IH.
  destruct c as [[] [] [] [] [] [] [] []]; reflexivity.
Qed.
Lemma gloss_special s : special s = true -> tex_gloss s = blk_special s.
Proof. intros H. unfold tex_gloss. rewrite special_sign, H. reflexivity. Qed.
Lemma gloss_plain s : special s = false -> tex_gloss s = " " ++ texsafe s.
Proof. intros H. unfold tex_gloss. rewrite special_sign, H, texsafe_escape. reflexivity. Qed.
Lemma joined_app a b : joined (a ++ b) = joined a ++ joined b.
Proof. induction a as [|x a IH]; [reflexivity|]. cbn [List.app joined fold_right]. unfold joined in IH. now rewrite IH, sapp_assoc. Qed.
Lemma joined_snoc a b : joined (a ++ [b]) = joined a ++ b.
Proof. rewrite joined_app. cbn [joined fold_right]. now rewrite sapp_nil. Qed.

(* the words and translations waiting in the buffers *)
Definition waits (d : drv) (lw lg : list string) : Prop :=
  d_loj d = joined (map (append " ") lw) /\ d_eng d = joined (map tex_gloss lg).
Definition evs (cs : list call) : list call := filter event cs.

Lemma full_false s : full s = false -> s = "".
Proof. destruct s; [reflexivity|discriminate]. Qed.

Lemma joined_nil l : Forall (fun s : string => s <> "") l -> joined l = "" -> l = [].
Proof. intros F. destruct F as [|x l X F]; [reflexivity|]. cbn [joined fold_right]. intros E. destruct x; [now elim X|discriminate E]. Qed.
Definition solid (d : drv) (lw lg : list string) : Prop := waits d lw lg /\ Forall (fun g => tex_gloss g <> "") lg.
Lemma solid_loj d lw lg : solid d lw lg -> full (d_loj d) = false -> lw = [].
Proof.
  intros [[A _] _] E. apply full_false in E. rewrite A in E. apply joined_nil in E; [now destruct lw|].
  clear. induction lw; constructor; [discriminate|assumption].
Qed.
Lemma solid_eng d lw lg : solid d lw lg -> full (d_eng d) = false -> lg = [].
Proof.
  intros [[_ B] F] E. apply full_false in E. rewrite B in E. apply joined_nil in E; [now destruct lg|].
  clear - F. induction F; constructor; assumption.
Qed.
Lemma solid_nil d : d_loj d = "" -> d_eng d = "" -> solid d [] [].
Proof. intros A B. split; [split; [exact A|exact B]|constructor]. Qed.
Lemma solid_same d d' lw lg : solid d lw lg -> d_loj d' = d_loj d -> d_eng d' = d_eng d -> solid d' lw lg.
Proof. intros [[A B] F] E1 E2. split; [split; congruence|exact F]. Qed.
Lemma block_piece d lw lg : solid d lw lg -> block d = shown_piece (Block lw lg (tag_lines (d_tag d))).
Proof. intros [[A B] _]. unfold block, shown_piece. now rewrite A, B. Qed.

Definition waiting (lw lg : list string) : list call := List.app (map Loj lw) (map Eng lg).
Lemma flush_some_piece d lw lg : solid d lw lg -> exists row,
  fst (flush_some d) = joined (map shown_piece row) /\ Forall gap_piece row /\ waiting lw lg = flat_map events_of row /\
  d_loj (snd (flush_some d)) = "" /\ d_eng (snd (flush_some d)) = "".
Proof.
  intros S. unfold flush_some. destruct (full (d_loj d) || full (d_eng d)) eqn:E.
  - exists [Block lw lg (tag_lines (d_tag d))]. cbn [flush_block fst snd]. repeat split; [|repeat constructor|].
    + cbn [map joined fold_right]. now rewrite sapp_nil, <- block_piece.
    + cbn [flat_map events_of]. now rewrite app_nil_r.
  - apply orb_false_iff in E. destruct E as [E1 E2]. exists []. cbn [fst snd]. split; [reflexivity|]. split; [constructor|].
    split; [|split; now apply full_false]. now rewrite (solid_loj _ _ _ S E1), (solid_eng _ _ _ S E2).
Qed.
Lemma clear_piece d : exists row, fst (clear_eols blk_eols d) = joined (map shown_piece row) /\ Forall gap_piece row /\ flat_map events_of row = [] /\
  d_loj (snd (clear_eols blk_eols d)) = d_loj d /\ d_eng (snd (clear_eols blk_eols d)) = d_eng d.
Proof.
  unfold clear_eols. destruct (d_eols d) as [|n]; [exists []; repeat split; constructor|].
  exists [Gap (blk_eols (S n))]. cbn [fst snd map joined fold_right shown_piece]. rewrite sapp_nil. repeat split.
  constructor; [|constructor]. cbn [gap_piece]. unfold blk_eols. destruct (Nat.ltb 1 (S n)); [right; right; now left|right; left]. reflexivity.
Qed.
Lemma gap_before d : exists row, before_text " " d = joined (map shown_piece row) /\ Forall gap_piece row /\ flat_map events_of row = [].
Proof.
  unfold before_text. destruct (d_state d); try (exists []; repeat split; constructor); (exists [Gap " "]; repeat split; repeat constructor).
Qed.
Lemma gap_close d : exists row, before_close d = joined (map shown_piece row) /\ Forall gap_piece row /\ flat_map events_of row = [].
Proof.
  unfold before_close. destruct (d_state d); try (exists []; repeat split; constructor); (exists [Gap " "]; repeat split; repeat constructor).
Qed.
Definition real (b : bracket) : bool := match b with BR_NONE => false | _ => true end.
Lemma open_piece b n : real b = true -> blk_open b n = shown_piece (Sign (Open b n)).
Proof. destruct b; intros H; try discriminate H; cbn [blk_open shown_piece tex_signs fst]; unfold blk_sub; now rewrite !sapp_assoc. Qed.
Lemma close_piece b n : real b = true -> blk_close b n = shown_piece (Sign (Close b n)).
Proof. destruct b; intros H; try discriminate H; cbn [blk_close shown_piece tex_signs snd]; unfold blk_sub; now rewrite !sapp_assoc. Qed.

(* one call *)
Definition blk_one (d : drv) (c : call) (o : string) (d' : drv) (lw lg : list string) : Prop :=
  exists row lw' lg', o = joined (map shown_piece row) /\ Forall gap_piece row /\
    List.app (waiting lw lg) (evs [c]) = List.app (flat_map events_of row) (waiting lw' lg') /\ solid d' lw' lg' /\
    (closing c = true -> lw' = [] /\ lg' = []) /\ (event c = false -> lw = [] -> lg = [] -> lw' = [] /\ lg' = []).
Lemma quiet_one d c lw lg d' : event c = false -> closing c = false -> solid d' lw lg -> blk_one d c "" d' lw lg.
Proof.
  intros E Cl S. exists [], lw, lg. split; [reflexivity|]. split; [constructor|]. unfold evs. cbn [filter]. rewrite E.
  split; [now rewrite app_nil_r|]. split; [exact S|]. rewrite Cl. split; [discriminate|]. auto.
Qed.
Lemma blk_step_one d c o d' lw lg : visible c -> solid d lw lg -> blk_step d c = Ok (o, d') -> blk_one d c o d' lw lg.
Proof.
  intros V S H. destruct (flush_some_piece d lw lg S) as (r1 & F1 & G1 & E1 & L1 & X1).
  destruct (flush_some d) as [fo fd] eqn:FE. cbn [fst snd] in *.
  destruct c as [br n|br n|n|s|s| | | |bv pl tr brac|s]; cbn [blk_step] in H.
  - destruct (real br) eqn:NB.
    2: { destruct br; try discriminate NB. injection H as <- <-. now apply quiet_one. }
    assert (H' : (let (o1, d) := flush_some d in let (o2, d) := clear_eols blk_eols d in
      Ok (o1 ++ o2 ++ before_text " " d ++ blk_open br n, set_state d ST_OPEN)) = Ok (o, d')) by (destruct br; [discriminate NB|exact H..]).
    rewrite FE in H'. destruct (clear_piece fd) as (r2 & F2 & G2 & E2 & L2 & X2). destruct (clear_eols blk_eols fd) as [co cd]. cbn [fst snd] in *.
    destruct (gap_before cd) as (r3 & F3 & G3 & E3). injection H' as <- <-. rewrite open_piece by exact NB.
    exists (List.app r1 (List.app r2 (List.app r3 [Sign (Open br n)]))), [], []. split.
    { rewrite F1, F2, F3, !map_app, !joined_app. cbn [map joined fold_right]. now rewrite sapp_nil. }
    split; [repeat (apply Forall_app; split); try assumption; repeat constructor|].
    split; [rewrite !flat_map_app, E2, E3, <- E1; cbn [flat_map events_of List.app waiting map]; rewrite !app_nil_r; f_equal; destruct br; [discriminate NB|reflexivity..]|].
    split; [apply solid_nil; cbn [set_state d_loj d_eng]; congruence|]. split; [discriminate 1|now intros].
  - destruct (real br) eqn:NB.
    2: { destruct br; try discriminate NB. injection H as <- <-. now apply quiet_one. }
    assert (H' : (let (o, d) := flush_some d in Ok (o ++ before_close d ++ blk_close br n, set_state d ST_CLOSE)) = Ok (o, d')) by (destruct br; [discriminate NB|exact H..]).
    rewrite FE in H'. destruct (gap_close fd) as (r3 & F3 & G3 & E3). injection H' as <- <-. rewrite close_piece by exact NB.
    exists (List.app r1 (List.app r3 [Sign (Close br n)])), [], []. split.
    { rewrite F1, F3, !map_app, !joined_app. cbn [map joined fold_right]. now rewrite sapp_nil. }
    split; [repeat (apply Forall_app; split); try assumption; repeat constructor|].
    split; [rewrite !flat_map_app, E3, <- E1; cbn [flat_map events_of List.app waiting map]; rewrite !app_nil_r; f_equal; destruct br; [discriminate NB|reflexivity..]|].
    split; [apply solid_nil; cbn [set_state d_loj d_eng]; congruence|]. split; now intros.
  - injection H as <- <-. now apply quiet_one.
  - assert (K : exists row lw1, fst (if full (d_eng d) then flush_block d else ("", d)) = joined (map shown_piece row) /\ Forall gap_piece row /\
        waiting lw lg = List.app (flat_map events_of row) (waiting lw1 []) /\ solid (snd (if full (d_eng d) then flush_block d else ("", d))) lw1 []).
    { destruct (full (d_eng d)) eqn:FD.
      - exists [Block lw lg (tag_lines (d_tag d))], []. cbn [flush_block fst snd map joined fold_right flat_map events_of].
        split; [now rewrite sapp_nil, <- block_piece|]. split; [repeat constructor|]. split; [now rewrite !app_nil_r|now apply solid_nil].
      - pose proof (solid_eng _ _ _ S FD). subst lg. exists [], lw. split; [reflexivity|]. split; [constructor|]. split; [reflexivity|exact S]. }
    destruct (if full (d_eng d) then flush_block d else ("", d)) as [o1 d1]. cbn [fst snd] in K. destruct K as (r2 & lw1 & F2 & G2 & E2 & S2).
    destruct (clear_piece d1) as (r3 & F3 & G3 & E3 & L3 & X3). destruct (clear_eols blk_eols d1) as [co cd]. cbn [fst snd] in *.
    destruct (blk_put (d_loj cd ++ " " ++ s)) as [l| | | |] eqn:P; try discriminate H. cbn [obind] in H. injection H as <- <-.
    apply put_inv in P. subst l. exists (List.app r2 r3), (lw1 ++ [s])%list, []. split; [now rewrite F2, F3, map_app, joined_app|].
    split; [apply Forall_app; now split|]. split.
    { rewrite flat_map_app, E3, app_nil_r, E2, <- app_assoc. f_equal. unfold waiting. now rewrite map_app, !app_nil_r. }
    split; [|split; [discriminate 1|discriminate 1]].
    destruct S2 as [[A B] _]. split; [split|constructor].
    + cbn [set_loj d_loj]. rewrite L3, A, map_app. cbn [map]. now rewrite joined_snoc.
    + cbn [set_loj d_eng]. now rewrite X3.
  - destruct S as [[A B] F].
    assert (K : exists e, blk_put (d_eng d ++ tex_gloss s) = Ok e /\ o = "" /\ d' = set_eng d e).
    { destruct (special s) eqn:SP.
      - rewrite (gloss_special _ SP). destruct (blk_put _) as [e| | | |]; try discriminate H. cbn [obind] in H. injection H as <- <-. now exists e.
      - rewrite (gloss_plain _ SP). unfold make_texsafe in H. destruct (put 65536 (texsafe s)) as [x| | | |] eqn:P; try discriminate H. cbn [obind] in H.
        apply put_inv in P. subst x. destruct (blk_put _) as [e| | | |]; try discriminate H. cbn [obind] in H. injection H as <- <-. now exists e. }
    destruct K as (e & P & -> & ->). apply put_inv in P. subst e.
    exists [], lw, (lg ++ [s])%list. split; [reflexivity|]. split; [constructor|]. split.
    { unfold waiting. cbn [flat_map List.app]. rewrite map_app, app_assoc. reflexivity. }
    split; [|split; [discriminate 1|discriminate 1]]. split; [split; [exact A|]|].
    + cbn [set_eng d_eng]. rewrite B, map_app. cbn [map]. now rewrite joined_snoc.
    + apply Forall_app. split; [exact F|]. constructor; [exact V|constructor].
  - rewrite FE in H. destruct (clear_piece fd) as (r2 & F2 & G2 & E2 & L2 & X2). destruct (clear_eols blk_eols fd) as [co cd]. cbn [fst snd] in *.
    destruct (blk_put _) as [e| | | |] eqn:P; try discriminate H. cbn [obind] in H. injection H as <- <-.
    exists (List.app r1 r2), [], []. split; [now rewrite F1, F2, map_app, joined_app|]. split; [apply Forall_app; now split|].
    split; [rewrite flat_map_app, E2, <- E1; cbn [waiting map evs filter event List.app]; now rewrite !app_nil_r|].
    split; [apply solid_nil; cbn [set_first set_tag d_loj d_eng]; congruence|]. split; [discriminate 1|now intros].
  - destruct (blk_put _) as [e| | | |] eqn:P; try discriminate H. cbn [obind] in H. injection H as <- <-. apply quiet_one; [reflexivity..|]. exact (solid_same d _ lw lg S eq_refl eq_refl).
  - destruct (blk_put _) as [e| | | |] eqn:P; try discriminate H. cbn [obind] in H. injection H as <- <-. apply quiet_one; [reflexivity..|]. exact (solid_same d _ lw lg S eq_refl eq_refl).
  - destruct (make_texsafe tr) as [x| | | |]; try discriminate H. cbn [obind] in H.
    destruct (blk_put (bv ++ _)) as [e| | | |] eqn:P; try discriminate H. cbn [obind] in H.
    destruct (blk_put (d_tag d ++ _)) as [e'| | | |] eqn:P'; try discriminate H. cbn [obind] in H. injection H as <- <-.
    apply quiet_one; [reflexivity..|]. exact (solid_same d _ lw lg S eq_refl eq_refl).
  - destruct (blk_put s) as [e| | | |] eqn:P; try discriminate H. cbn [obind] in H.
    destruct (blk_put (d_tag d ++ _)) as [e'| | | |] eqn:P'; try discriminate H. cbn [obind] in H. injection H as <- <-.
    apply quiet_one; [reflexivity..|]. exact (solid_same d _ lw lg S eq_refl eq_refl).
Qed.

Lemma blk_run : forall cs d o d' lw lg, Forall visible cs -> solid d lw lg -> run blk_step d cs = Ok (o, d') ->
  exists row lw' lg', o = joined (map shown_piece row) /\ Forall gap_piece row /\
    List.app (waiting lw lg) (evs cs) = List.app (flat_map events_of row) (waiting lw' lg') /\ solid d' lw' lg' /\
    (ended cs -> lw' = [] /\ lg' = []) /\ (forallb (fun c => negb (event c)) cs = true -> lw = [] -> lg = [] -> lw' = [] /\ lg' = []).
Proof.
  induction cs as [|c cs IH]; intros d o d' lw lg F S R; cbn [run] in R.
  - injection R as <- <-. exists [], lw, lg. split; [reflexivity|]. split; [constructor|]. split; [now rewrite app_nil_r|]. split; [exact S|].
    split; [intros (pre & c & post & E & _); now destruct pre|auto].
  - inversion F as [|c' cs' V F']; subst. destruct (blk_step d c) as [[o1 d1]| | | |] eqn:E1; try discriminate R. cbn [obind] in R.
    destruct (run blk_step d1 cs) as [[o2 d2]| | | |] eqn:E2; try discriminate R. cbn [obind] in R. injection R as <- <-.
    destruct (blk_step_one _ _ _ _ _ _ V S E1) as (r1 & lw1 & lg1 & O1 & G1 & V1 & S1 & C1 & Q1).
    destruct (IH _ _ _ _ _ F' S1 E2) as (r2 & lw2 & lg2 & O2 & G2 & V2 & S2 & C2 & Q2).
    exists (List.app r1 r2), lw2, lg2. split; [now rewrite O1, O2, map_app, joined_app|]. split; [apply Forall_app; now split|].
    split; [|split; [exact S2|split]].
    + change (c :: cs) with (List.app [c] cs). unfold evs in *. rewrite filter_app, app_assoc, V1, flat_map_app, <- !app_assoc. now rewrite V2.
    + intros (pre & c0 & post & E & Cl & Po). destruct pre as [|p pre]; injection E as -> ->.
      * destruct (C1 Cl) as [-> ->]. apply (Q2 Po); reflexivity.
      * apply C2. exists pre, c0, post. auto.
    + cbn [forallb]. intros N Lw Lg. apply andb_prop in N. destruct N as [Nc N]. apply negb_true_iff in Nc.
      destruct (Q1 Nc Lw Lg) as [-> ->]. apply (Q2 N); reflexivity.
Qed.

Theorem blk_pieces cs out : Forall visible cs -> print_latex_block cs = Ok out ->
  exists row lw lg, out = "\begin{document}" ++ line ++ "\small" ++ line ++ joined (map shown_piece row) ++ "\end{document}" ++ line /\
    Forall gap_piece row /\ filter event cs = List.app (flat_map events_of row) (List.app (map Loj lw) (map Eng lg)) /\
    (ended cs -> lw = [] /\ lg = []).
Proof.
  intros F H. unfold print_latex_block, print_with in H. destruct (run blk_step initialise cs) as [[o d']| | | |] eqn:R; try discriminate H.
  cbn [obind] in H. injection H as <-.
  destruct (blk_run cs initialise o d' [] [] F (solid_nil initialise eq_refl eq_refl) R) as (row & lw & lg & O & G & V & _ & C & _).
  exists row, lw, lg. split; [rewrite O; reflexivity|]. split; [exact G|]. split; [exact V|exact C].
Qed.

(* a translation in TeX *)
Lemma latex_app : forall pre d post o d', run latex_step d (List.app pre post) = Ok (o, d') ->
  exists a d1 b, run latex_step d pre = Ok (a, d1) /\ run latex_step d1 post = Ok (b, d') /\ o = a ++ b.
Proof.
  induction pre as [|c pre IH]; intros d post o d' H; cbn [List.app run] in *.
  - exists "", d, o. auto.
  - destruct (latex_step d c) as [[o1 d1]| | | |]; try discriminate H. cbn [obind] in *.
    destruct (run latex_step d1 (List.app pre post)) as [[o2 d2]| | | |] eqn:R; try discriminate H. cbn [obind] in H. injection H as <- <-.
    destruct (IH _ _ _ _ R) as (a & d3 & b & R1 & R2 & ->). exists (o1 ++ a), d3, b. rewrite R1. split; [reflexivity|]. split; [exact R2|]. now rewrite sapp_assoc.
Qed.
Theorem latex_gloss pre s post out : special s = false -> no_command s = true -> print_latex (List.app pre (Eng s :: post)) = Ok out ->
  exists a e b, out = a ++ "\textsl{\small{}" ++ e ++ "}" ++ b /\ tex_shown e = s.
Proof.
  intros SP NC H. unfold print_latex, print_with in H. destruct (run latex_step initialise _) as [[o d']| | | |] eqn:R; try discriminate H.
  cbn [obind] in H. assert (E : out = latex_prologue ++ o ++ latex_epilogue) by (now inversion H). subst out. clear H. destruct (latex_app _ _ _ _ _ R) as (a & d1 & b & _ & R2 & ->). cbn [run latex_step] in R2. rewrite SP in R2.
  unfold make_texsafe in R2. destruct (put 65536 (texsafe s)) as [e| | | |] eqn:P; try discriminate R2. cbn [obind] in R2. apply put_inv in P. subst e.
  destruct (run latex_step (set_state d1 ST_TEXT) post) as [[o2 d2]| | | |]; try discriminate R2. cbn [obind] in R2. assert (E2 : b = (before_text nl d1 ++ "\textsl{\small{}" ++ texsafe s ++ "}") ++ o2) by (now inversion R2). subst b.
  exists (latex_prologue ++ a ++ before_text nl d1), (texsafe s), (o2 ++ latex_epilogue). split; [now rewrite !sapp_assoc|now apply texsafe_shown].
Qed.
