(* The word glosser: blocks and LaTeX. *)
From Coq Require Import String Ascii List NArith ZArith Bool Arith Lia.
From Verif Require Import Base LayoutModel LujvoSpec LayoutSpec LayoutProofs3 LayoutProofs5 CmModel CmSpec CmOutSpec CmProofs CmProofs2 CmProofs3 CmProofs4 CmProofs5 CmProofs6 CmProofs7 CmProofs8.
Import ListNotations.
Open Scope list_scope.

Definition call_of (p : piece) : cm_op := match p with Glossed w c t => CWord w c t | Blank => CNewline | Bracket t => CParen t end.

Section DICT.
  Variable dict : txt -> option txt.
  Hypothesis small_ok : small_entries dict.
  Lemma item_calls i ps : item_pieces dict i ps -> exists ns rs, node_of i ns /\ do_trans dict ns = Ok rs /\ calls rs = map call_of ps.
  Proof.
    intros [w c t W L1 L2|w (W & NC & NN & NB)| |qs].
    - destruct (word_node _ small_ok _ _ _ W L1 L2) as (k & F & NE & I & K & T). exists [(k, w)], [(k, w, (c, t))]. split; [exists k; auto 6 |]. cbn [do_trans]. rewrite T. split; [reflexivity |].
      destruct K as [->|[->| ->]]; reflexivity.
    - exists [], []. split; [| split; reflexivity]. exists Fell. split; [apply first_other; assumption |]. destruct W as [NE W]. split; [exact NE |]. split; [apply word_in; exact W | auto].
    - exists [(TT_NEWLINE, [])], [(TT_NEWLINE, [], ([], []))]. repeat split.
    - exists (map (fun p => (TT_PAREN, p)) qs), (map (fun p => ((TT_PAREN, p), ([], []))) qs). split; [reflexivity |]. split.
      + induction qs as [|p qs IH]; [reflexivity |]. cbn [map do_trans]. rewrite IH. reflexivity.
      + unfold calls. rewrite !map_map. reflexivity.
  Qed.
  Lemma text_calls its s pss : CmSpec.laid its s -> Forall2 (item_pieces dict) its pss ->
    exists ts rs, yylex s = Ok ts /\ do_trans dict (gathered ts) = Ok rs /\ calls rs = map call_of (List.concat pss).
  Proof.
    intros L F. assert (N : exists nss rs, Forall2 node_of its nss /\ do_trans dict (List.concat nss) = Ok rs /\ calls rs = map call_of (List.concat pss)).
    { clear L. induction F as [|i o its outs I F (nss & rs & N & D & C)]; [exists [], []; repeat split; constructor |]. destruct (item_calls _ _ I) as (ns & r & NI & DI & CI).
      exists (ns :: nss), (r ++ rs). split; [constructor; assumption |]. cbn [List.concat]. split; [apply do_trans_app; assumption |]. unfold calls in *. rewrite map_app, map_app, CI, C. reflexivity. }
    destruct N as (nss & rs & N & D & C). destruct (laid_scan _ _ L _ N) as (ts & E & G). exists ts, rs. split; [exact E |]. rewrite G. auto.
  Qed.
  Theorem blocks W its s pss : CmSpec.laid its s -> Forall2 (item_pieces dict) its pss -> (W < 512)%Z -> Forall narrow (List.concat pss) ->
    exists out, cmafihe dict (OF_TEXTBLK W) s = Ok (out ++ eol) /\ LayoutSpec.laid W (List.concat (map in_rows (List.concat pss))) out.
  Proof.
    intros L F WW NA. destruct (text_calls _ _ _ L F) as (ts & rs & E & D & C). destruct (cm_safe W (map call_of (List.concat pss)) WW) as [out R].
    - apply Forall_map. eapply Forall_impl; [| exact NA]. intros [w c t| |t]; exact (fun x => x).
    - exists out. split.
      + unfold cmafihe. rewrite E. cbn [obind]. rewrite D. cbn [obind]. rewrite C, R. reflexivity.
      + pose proof (cm_laid _ _ _ R) as LA. rewrite map_map in LA. erewrite map_ext; [exact LA |]. intros [w c t| |t]; reflexivity.
  Qed.
  Theorem latex its s pss : CmSpec.laid its s -> Forall2 (item_pieces dict) its pss ->
    cmafihe dict OF_LATEX s = Ok (preamble ++ List.concat (map in_latex (List.concat pss)) ++ lines ["\end{document}"%string; ""%string; ""%string]).
  Proof.
    intros L F. destruct (text_calls _ _ _ L F) as (ts & rs & E & D & C). unfold cmafihe. rewrite E. cbn [obind]. rewrite D. cbn [obind]. rewrite C, map_map.
    erewrite (map_ext _ in_latex); [reflexivity |]. intros [w c t| |t]; cbn [call_of latex_op in_latex]; unfold small; rewrite <- ?app_assoc; reflexivity.
  Qed.
End DICT.
