From Coq Require Import String Ascii List NArith ZArith Bool Lia.
From Verif Require Import Base MainModel MainSpec.
Import ListNotations.
Open Scope string_scope.

Definition setter (f : fname) : options -> options :=
  match f with
  | F_d => on_d | F_k => on_k | F_g => on_g | F_t => on_t | F_tf => on_tf | F_l => on_l | F_x => on_x | F_H => on_H
  | F_b => on_b | F_m => on_m | F_ie => on_ie | F_re => on_re | F_se => set_se true | F_sev => on_sev | F_cr => on_cr
  | F_bt => on_bt | F_dd => on_dd
  end.
Definition apply1 (o : options) (i : item) : options :=
  match i with Flag f => setter f o | Width _ ds => set_width (amount ds) o | File s => set_file s o end.

Lemma flag_spelt f : flag (spelt f) = Some (setter f).
Proof. destruct f; reflexivity. Qed.

Lemma digit_code d : d < 10 -> N_of_ascii (digit d) = N.of_nat (48 + d).
Proof. intro H. do 10 (destruct d as [|d]; [reflexivity|]). lia. Qed.
Lemma digits_read : forall ds z, Forall (fun d => d < 10) ds ->
  atoi_digits (numeral ds) z = fold_left (fun z d => (10 * z + Z.of_nat d)%Z) ds z.
Proof.
  induction ds as [|d ds IH]; intros z H; [reflexivity|]. inversion H; subst.
  unfold numeral in *. cbn [map text atoi_digits]. rewrite digit_code by assumption.
  replace ((48 <=? Z.of_N (N.of_nat (48 + d)))%Z) with true by (symmetry; apply Z.leb_le; lia).
  replace ((Z.of_N (N.of_nat (48 + d)) <=? 57)%Z) with true by (symmetry; apply Z.leb_le; lia).
  cbn [andb fold_left]. rewrite IH by assumption. f_equal. lia.
Qed.
Lemma amount_pos ds : forall z, (0 <= z -> 0 <= fold_left (fun z d => (10 * z + Z.of_nat d)%Z) ds z)%Z.
Proof. induction ds as [|d ds IH]; intros z Hz; cbn [fold_left]; [exact Hz|]. apply IH. lia. Qed.
Lemma atoi_numeral ds : ds <> [] -> Forall (fun d => d < 10) ds -> (amount ds < 2147483648)%Z -> atoi (numeral ds) = Ok (amount ds).
Proof.
  intros Hn Hd Ha. unfold atoi.
  assert (E : match atoi_blanks (numeral ds) with
           | String "-" t => (- atoi_digits t 0)%Z
           | String "+" t => atoi_digits t 0
           | t => atoi_digits t 0
           end = amount ds).
  { unfold amount. rewrite <- digits_read by exact Hd. destruct ds as [|d ds]; [contradiction|]. inversion Hd; subst.
    unfold numeral. cbn [map text]. do 10 (destruct d as [|d]; [reflexivity|]). lia. }
  rewrite E. pose proof (amount_pos ds 0 ltac:(lia)) as Hp. fold (amount ds) in Hp.
  replace (amount ds <? -2147483648)%Z with false by (symmetry; apply Z.ltb_ge; lia).
  replace (2147483647 <? amount ds)%Z with false by (symmetry; apply Z.ltb_ge; lia). reflexivity.
Qed.

Lemma no_flag a : prefix "-" a = false -> flag a = None.
Proof.
  intro H. unfold flag. destruct a as [|c a]; [reflexivity|].
  assert (n : c <> "-"%char) by (intros ->; destruct a; discriminate H).
  repeat (match goal with |- context [?x =? ?y] => destruct (String.eqb_spec x y) as [E|_]; [injection E as E _; congruence|] end).
  reflexivity.
Qed.

Lemma read_items : forall l o rest, Forall proper l -> read_args (command l ++ rest) o = read_args rest (fold_left apply1 l o).
Proof.
  induction l as [|i l IH]; intros o rest H; [reflexivity|]. inversion H as [|? ? Hi Hl]; subst.
  unfold command. cbn [flat_map fold_left]. fold (command l). rewrite <- app_assoc.
  destruct i as [f|j ds|s]; cbn [apply1].
  - cbn [written app read_args]. rewrite flag_spelt. apply IH. exact Hl.
  - destruct Hi as (Hn & Hd & Ha). destruct j; cbn [written app].
    + pose proof (atoi_numeral ds Hn Hd Ha) as E.
      assert (Enum : exists c t, numeral ds = String c t) by (destruct ds; [contradiction|]; unfold numeral; cbn; eauto).
      destruct Enum as (c & t & Et). rewrite Et in *. cbn [append].
      assert (Ef : flag (String "-" (String "w" (String c t))) = None) by reflexivity.
      cbn [read_args]. rewrite Ef. cbn [String.eqb Ascii.eqb Bool.eqb prefix]. 
      replace (String "-" (String "w" (String c t)) =? "-v") with false by reflexivity.
      replace (prefix "-w" (String "-" (String "w" (String c t)))) with true by (cbn; destruct t; reflexivity).
      rewrite E. cbn [obind]. apply IH. exact Hl.
    + cbn [read_args]. change (flag "-w") with (@None (options -> options)). cbn [String.eqb Ascii.eqb Bool.eqb].
      change (prefix "-w" "-w") with true. cbv iota. rewrite (atoi_numeral ds Hn Hd Ha). cbn [obind]. apply IH. exact Hl.
  - cbn [written app read_args]. cbn in Hi. rewrite (no_flag s Hi).
    destruct (String.eqb_spec s "-v") as [->|_]; [discriminate|].
    assert (Hw : prefix "-w" s = false).
    { destruct s as [|c s]; [reflexivity|]. 
      assert (n : "-"%char <> c) by (intros <-; destruct s; discriminate Hi).
      unfold prefix. destruct (ascii_dec "-" c) as [e|_]; [contradiction|reflexivity]. }
    rewrite Hw.
    destruct (String.eqb_spec s "--help") as [->|_]; [discriminate|].
    destruct (String.eqb_spec s "-h") as [->|_]; [discriminate|].
    destruct (String.eqb_spec s "-?") as [->|_]; [discriminate|]. cbn [orb].
    rewrite Hi. apply IH. exact Hl.
Qed.

Ltac field_tac := intro o; cbn [fold_left existsb];
  try (cbn; rewrite ?orb_false_r; reflexivity);
  match goal with IH : forall o : options, _ = _ |- context [Flag ?f] => rewrite IH; destruct f; cbn; rewrite ?orb_true_r; reflexivity
  | IH : forall o : options, _ = _ |- _ => rewrite IH; reflexivity end.
Definition has (f : fname) (i : item) : bool := match i with Flag g => if spelt f =? spelt g then true else false | _ => false end.
Lemma fold_debug l : forall o, debug (fold_left apply1 l o) = debug o || existsb (has F_d) l. Proof. induction l as [|[f|j ds|s] l IH]; field_tac. Qed.
Lemma fold_token_lists l : forall o, token_lists (fold_left apply1 l o) = token_lists o || existsb (has F_k) l. Proof. induction l as [|[f|j ds|s] l IH]; field_tac. Qed.
Lemma fold_gloss l : forall o, gloss (fold_left apply1 l o) = gloss o || existsb (has F_g) l. Proof. induction l as [|[f|j ds|s] l IH]; field_tac. Qed.
Lemma fold_show_tree l : forall o, show_tree (fold_left apply1 l o) = show_tree o || existsb (fun i => has F_t i || has F_tf i) l. Proof. induction l as [|[f|j ds|s] l IH]; field_tac. Qed.
Lemma fold_full_tree l : forall o, full_tree (fold_left apply1 l o) = full_tree o || existsb (has F_tf) l. Proof. induction l as [|[f|j ds|s] l IH]; field_tac. Qed.
Lemma fold_latex l : forall o, latex (fold_left apply1 l o) = latex o || existsb (has F_l) l. Proof. induction l as [|[f|j ds|s] l IH]; field_tac. Qed.
Lemma fold_textout l : forall o, textout (fold_left apply1 l o) = textout o || existsb (has F_x) l. Proof. induction l as [|[f|j ds|s] l IH]; field_tac. Qed.
Lemma fold_htmlout l : forall o, htmlout (fold_left apply1 l o) = htmlout o || existsb (has F_H) l. Proof. induction l as [|[f|j ds|s] l IH]; field_tac. Qed.
Lemma fold_block l : forall o, block (fold_left apply1 l o) = block o || existsb (has F_b) l. Proof. induction l as [|[f|j ds|s] l IH]; field_tac. Qed.
Lemma fold_memory l : forall o, show_memory (fold_left apply1 l o) = show_memory o || existsb (has F_m) l. Proof. induction l as [|[f|j ds|s] l IH]; field_tac. Qed.
Lemma fold_ie l : forall o, insert_elidables (fold_left apply1 l o) = insert_elidables o || existsb (has F_ie) l. Proof. induction l as [|[f|j ds|s] l IH]; field_tac. Qed.
Lemma fold_re l : forall o, require_elidables (fold_left apply1 l o) = require_elidables o || existsb (has F_re) l. Proof. induction l as [|[f|j ds|s] l IH]; field_tac. Qed.
Lemma fold_se l : forall o, show_elisions (fold_left apply1 l o) = show_elisions o || existsb (fun i => has F_se i || has F_sev i) l. Proof. induction l as [|[f|j ds|s] l IH]; field_tac. Qed.
Lemma fold_sev l : forall o, show_elisions_verbose (fold_left apply1 l o) = show_elisions_verbose o || existsb (has F_sev) l. Proof. induction l as [|[f|j ds|s] l IH]; field_tac. Qed.
Lemma fold_cr l : forall o, cultural_rafsi (fold_left apply1 l o) = cultural_rafsi o || existsb (has F_cr) l. Proof. induction l as [|[f|j ds|s] l IH]; field_tac. Qed.
Lemma fold_bt l : forall o, backtrace (fold_left apply1 l o) = backtrace o || existsb (has F_bt) l. Proof. induction l as [|[f|j ds|s] l IH]; field_tac. Qed.
Lemma fold_dd l : forall o, dictionary_defects (fold_left apply1 l o) = dictionary_defects o || existsb (has F_dd) l. Proof. induction l as [|[f|j ds|s] l IH]; field_tac. Qed.
Lemma fold_width l : forall o, width (fold_left apply1 l o) = last_width l (width o).
Proof. induction l as [|[f|j ds|s] l IH]; intro o; cbn [fold_left last_width]; [reflexivity|rewrite IH..]; [destruct f| |]; reflexivity. Qed.
Lemma fold_file l : forall o, filename (fold_left apply1 l o) = last_file l (filename o).
Proof. induction l as [|[f|j ds|s] l IH]; intro o; cbn [fold_left last_file]; [reflexivity|rewrite IH..]; [destruct f| |]; reflexivity. Qed.

Lemma has_spec f i : has f i = true <-> i = Flag f.
Proof.
  destruct i as [g|j ds|s]; cbn; [|split; discriminate..].
  destruct f, g; cbn; split; intro H; try reflexivity; try discriminate H.
Qed.
Lemma is_has f l : is (existsb (has f) l) (given f l).
Proof.
  unfold is, given. rewrite existsb_exists. split.
  - intros (x & Hx & H). apply has_spec in H. subst. exact Hx.
  - intro H. exists (Flag f). split; [exact H|]. apply has_spec. reflexivity.
Qed.
Lemma is_has2 f g l : is (existsb (fun i => has f i || has g i) l) (given f l \/ given g l).
Proof.
  unfold is, given. rewrite existsb_exists. split.
  - intros (x & Hx & H). apply orb_true_iff in H. rewrite !has_spec in H. destruct H as [->| ->]; auto.
  - intros [H|H]; eexists; (split; [exact H|]); apply orb_true_iff; rewrite !has_spec; auto.
Qed.

Lemma options_asked l : Forall proper l -> exists o, read_args (command l) options0 = Ok (P_run o) /\ asked o l.
Proof.
  intro H. exists (fold_left apply1 l options0). split.
  - rewrite <- (app_nil_r (command l)). rewrite read_items by exact H. reflexivity.
  - unfold asked.
    rewrite fold_debug, fold_token_lists, fold_gloss, fold_show_tree, fold_full_tree, fold_latex, fold_textout, fold_htmlout,
      fold_block, fold_memory, fold_ie, fold_re, fold_se, fold_sev, fold_cr, fold_bt, fold_dd, fold_width, fold_file.
    cbn [options0 debug token_lists gloss show_tree full_tree latex textout htmlout block show_memory width insert_elidables
         require_elidables show_elisions show_elisions_verbose cultural_rafsi backtrace dictionary_defects filename orb].
    repeat (split; [solve [apply is_has|apply is_has2|reflexivity]|]). reflexivity.
Qed.

Lemma spelt_flag a : (forall f, a <> spelt f) -> flag a = None.
Proof.
  intro H. unfold flag.
  repeat (match goal with |- context [a =? ?y] => destruct (String.eqb_spec a y) as [E|_];
    [exfalso; first [exact (H F_d E)|exact (H F_k E)|exact (H F_g E)|exact (H F_t E)|exact (H F_tf E)|exact (H F_l E)|exact (H F_x E)|exact (H F_H E)
      |exact (H F_b E)|exact (H F_m E)|exact (H F_ie E)|exact (H F_re E)|exact (H F_se E)|exact (H F_sev E)|exact (H F_cr E)|exact (H F_bt E)|exact (H F_dd E)]|] end).
  reflexivity.
Qed.

Lemma stop_help l rest w s : Forall proper l -> In s ["--help"; "-h"; "-?"] -> main (command l ++ s :: rest) w = Ok ([A_usage], 0%N).
Proof.
  intros H Hs. unfold main. rewrite read_items by exact H.
  destruct Hs as [<-|[<-|[<-|[]]]]; reflexivity.
Qed.
Lemma stop_version l rest w : Forall proper l -> main (command l ++ "-v" :: rest) w = Ok ([A_version], 0%N).
Proof. intro H. unfold main. rewrite read_items by exact H. reflexivity. Qed.
Lemma stop_unknown l rest w s : Forall proper l -> unknown s -> main (command l ++ s :: rest) w = Ok ([A_bad_option s], 1%N).
Proof.
  intros H (Hp & Hw & Hf & Hn). unfold main. rewrite read_items by exact H. cbn [read_args].
  rewrite (spelt_flag s Hf).
  destruct (String.eqb_spec s "-v") as [E|_]; [exfalso; apply Hn; left; congruence|].
  rewrite Hw.
  destruct (String.eqb_spec s "--help") as [E|_]; [exfalso; apply Hn; right; left; congruence|].
  destruct (String.eqb_spec s "-h") as [E|_]; [exfalso; apply Hn; right; right; left; congruence|].
  destruct (String.eqb_spec s "-?") as [E|_]; [exfalso; apply Hn; right; right; right; left; congruence|].
  cbn [orb]. rewrite Hp. reflexivity.
Qed.
