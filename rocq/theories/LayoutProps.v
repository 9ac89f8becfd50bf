(* C39, C40: interlinear output. *)
From Coq Require Import String Ascii List NArith ZArith Bool Arith Lia.
From Verif Require Import Base LayoutModel LayoutSpec LayoutProofs LayoutProofs3 LayoutProofs4 LayoutProofs5.
Import ListNotations.
Open Scope list_scope.

(* C39: what is printed is the blocks of the calls, in order, on lines broken at the page
   width, each line as equally wide rows; [laid] leaves no choice. *)
Theorem C39_layout : forall W os evs out, blocks_of os = Some evs -> Forall solid evs -> run_driver W os = Ok out ->
  laid W evs out /\ forall out', laid W evs out' -> out' = out.
Proof. intros W os evs out G S H. pose proof (driver_laid W os evs out G S H) as L. split; [exact L|]. intros out' L'. exact (laid_one W evs out' out L' L). Qed.
Print Assumptions C39_layout.

(* a line is too wide only if it is a single block *)
Theorem C39_width : forall W bs ls, broken W bs ls -> Forall (fun l => (Z.of_nat (width l) <= W)%Z \/ exists b, l = [b]) ls.
Proof. intros W bs ls (_ & F & _). eapply Forall_impl; [|exact F]. exact (fits_line W). Qed.
Print Assumptions C39_width.

(* all rows of a line have the same width at the end of each block *)
Theorem C39_aligned : forall p q, List.length (row loj p) = width p /\ List.length (row eng p) = width p
  /\ (forall i, List.length (row (tag i) p) = width p)
  /\ (forall f, row f (p ++ q) = row f p ++ row f q).
Proof. intros p q. split; [apply loj_row|]. split; [apply eng_row|]. split; [intro i; apply tag_row|intro f; apply row_app]. Qed.
Print Assumptions C39_aligned.

(* the Lojban and English of the calls are in the blocks, in order *)
Theorem C39_texts : forall os evs, blocks_of os = Some evs ->
  concat (map (part_of loj) evs) = concat (map loj_of os) /\ concat (map (part_of eng) evs) = concat (map eng_of os).
Proof. exact texts_kept. Qed.
Print Assumptions C39_texts.

(* the simple glosser *)
Theorem C39_gloss : forall W os out, cm_run W os = Ok out ->
  laid W (concat (map cm_evs os)) out /\ forall out', laid W (concat (map cm_evs os)) out' -> out' = out.
Proof. intros W os out H. pose proof (cm_laid W os out H) as L. split; [exact L|]. intros out' L'. exact (laid_one W _ out' out L' L). Qed.
Print Assumptions C39_gloss.

(* tags with no text of their own are lost when a bracket closes *)
Theorem C39_tags_refuted : exists os, run_driver 79 os = run_driver 79 [Close BR_ROUND (lit "1")]
  /\ os = [StartTags; StartTag; TagText (lit "klama") (lit "1") (lit "go-er") false; EndTags; Close BR_ROUND (lit "1")].
Proof. eexists. split; [|reflexivity]. vm_compute. reflexivity. Qed.
Print Assumptions C39_tags_refuted.

(* a bracketed sentence, with tags, two line ends, and a page 20 wide *)
Definition example_ops : list op :=
  [Open BR_ROUND (lit "1"); Loj (lit "mi"); Trans (lit "I, me"); StartTags; StartTag; TagText (lit "klama") (lit "1") (lit "go-er") false; EndTags;
   Loj (lit "klama"); Trans (lit "go-ing"); Close BR_ROUND (lit "1"); Eols 2; Loj (lit "do"); Trans (lit "you")].
Example C39_example : exists evs, blocks_of example_ops = Some evs /\ Forall solid evs /\ List.length evs = 6
  /\ run_driver 20 example_ops = Ok (
        lit "( mi    " ++ eol ++ lit "( I, me " ++ eol ++ lit "(       " ++ eol ++ lit "1       " ++ eol ++ eol
        ++ lit "klama        ) " ++ eol ++ lit "go-ing       ) " ++ eol ++ lit "klama1 go-er ) " ++ eol ++ lit "             1 " ++ eol ++ eol
        ++ eol ++ rule ++ eol
        ++ lit "do  " ++ eol ++ lit "you " ++ eol ++ eol).
Proof.
  eexists. split; [vm_compute; reflexivity|].
  split; [repeat (constructor; [first [exact I|apply Nat.ltb_lt; vm_compute; reflexivity]|]); constructor|].
  split; vm_compute; reflexivity.
Qed.
Example C39_gloss_example :
  cm_run 12 [CWord (lit "mi") (lit "KOhA3") (lit "I"); CWord (lit "klama") (lit "bri") (lit "go"); CNewline; CParen (lit "ex"); CWord (lit "ui") (lit "UI1") (lit "whee")]
  = Ok (lit "mi    klama " ++ eol ++ lit "KOhA3 bri   " ++ eol ++ lit "I     go    " ++ eol ++ eol ++ eol
        ++ lit "( ex ) ui   " ++ eol ++ lit "(    ) UI1  " ++ eol ++ lit "(    ) whee " ++ eol ++ eol).
Proof. vm_compute. reflexivity. Qed.

(* C40: with a page less than 512 wide and texts that fit, there is no overrun. *)
Theorem C40_safe : forall W os evs, blocks_of os = Some evs -> Forall solid evs -> roomy os grp0 -> (W < 512)%Z ->
  exists out, run_driver W os = Ok out.
Proof. exact driver_safe. Qed.
Print Assumptions C40_safe.

(* without an overrun every block is less than 512 wide and has at most 32 tags *)
Theorem C40_overrun : forall W os evs out, blocks_of os = Some evs -> Forall solid evs -> run_driver W os = Ok out ->
  Forall (fun e => match e with B b => wide b < 512 /\ List.length (tags b) <= 32 | Rest _ => True end) evs.
Proof. exact driver_narrow. Qed.
Print Assumptions C40_overrun.

Theorem C40_gloss : forall W os, (W < 512)%Z -> Forall cm_small os -> exists out, cm_run W os = Ok out.
Proof. exact cm_safe. Qed.
Print Assumptions C40_gloss.

(* a page 600 wide, and blocks 300 wide; a text of 511 letters; 33 tags *)
Theorem C40_page_refuted : exists os evs, blocks_of os = Some evs /\ Forall (fun e => match e with B b => wide b <= 300 | Rest _ => True end) evs
  /\ run_driver 600 os = UB UB_bounds.
Proof.
  exists [Loj (repeat "a"%char 299); Trans (lit "x"); Loj (repeat "e"%char 299); Trans (lit "y")]. eexists.
  split; [vm_compute; reflexivity|]. split; [repeat (constructor; [apply Nat.leb_le; vm_compute; reflexivity|]); constructor|vm_compute; reflexivity].
Qed.
Print Assumptions C40_page_refuted.
Theorem C40_word_refuted : exists t, List.length t = 511 /\ run_driver 79 [Loj t] = UB UB_bounds.
Proof. exists (repeat "a"%char 511). split; vm_compute; reflexivity. Qed.
Print Assumptions C40_word_refuted.
Theorem C40_tags_refuted : exists os, List.length os = 37 /\ Forall (fun o => o = StartTag \/ o = StartTags \/ o = EndTags \/ o = Loj (lit "ko'a")) os
  /\ run_driver 79 os = UB UB_bounds.
Proof.
  exists (StartTags :: repeat StartTag 33 ++ [EndTags; Loj (lit "ko'a"); Loj (lit "ko'a")]).
  split; [reflexivity|]. split; [|vm_compute; reflexivity].
  constructor; [auto|]. apply Forall_app. split; [apply Forall_forall; intros x H; left; exact (repeat_spec _ _ _ H)|].
  constructor; [auto|]. constructor; [auto|]. constructor; [auto|constructor].
Qed.
Print Assumptions C40_tags_refuted.
Example C40_example : exists evs, blocks_of example_ops = Some evs /\ Forall solid evs /\ roomy example_ops grp0.
Proof.
  eexists. split; [vm_compute; reflexivity|].
  split; [repeat (constructor; [first [exact I|apply Nat.ltb_lt; vm_compute; reflexivity]|]); constructor|].
  apply roomyb_roomy. vm_compute. reflexivity.
Qed.
