(* Property theorems C81: interlinear output of parse trees. *)
From Coq Require Import String Ascii List NArith ZArith Bool Arith.
From Verif Require Import Base TreeModel TreeOutModel GramModel GramSpec GramProofs OutModel OutSpec OutProps RoomProps LayoutModel LayoutSpec LayoutProofs3 BlkModel BlkSpec BlkProofs BlkProofs3.
From Verif Require DrvProps.
Import ListNotations.
Open Scope string_scope.
Open Scope list_scope.

(* The output of every parse tree is grouped into blocks that are laid out on lines.  No block
   is without text.  Read one after the other, the first rows of the blocks are the words and
   brackets, the second rows the translations, the others the labels and the numbers of the
   brackets.  On a page less than 512 wide the program runs to the end just when each block is less
   than 512 wide and has at most 32 rows for labels. *)
Theorem C81_block : forall translate adv unk P rb t cs, parse_tree t ->
  do_output translate adv unk P (add_bracketing_tags rb (expand_bahe_ui t)) = Ok cs ->
  exists evs, blocks_of (map op_of cs) = Some evs /\ Forall solid evs /\
    concat (map (part_of loj) evs) = word_row cs /\ concat (map (part_of eng) evs) = gloss_row cs /\ concat (map tags_of evs) = label_rows cs None /\
    (forall W out, print_block W cs = Ok out -> laid W evs out) /\
    (forall W, (W < 512)%Z -> (exists out, print_block W cs = Ok out) <-> Forall small evs).
Proof.
  intros translate adv unk P rb t cs T H. destruct (block_rows cs (calls_followed _ _ _ _ _ _ _ T H)) as (evs & E & S & H1 & H2 & H3 & X).
  exists evs. repeat (split; [assumption |]). split; [| exact X]. intros W out R. exact (driver_laid W _ _ out E S R).
Qed.
Print Assumptions C81_block.

Definition ex_block : outcome (list call) := do_output ex_dict ex_adv ex_unk ex_labels (add_bracketing_tags (ex_rb ex_out) (expand_bahe_ui ex_out)).
Definition ex_page : string :=
"[ (                       / ge   mi   gi   /  / le            gerku ku \  < 
[ (                      |  both I/me and |  |  the described dog       | < 
[ ( bajra1 (bajra place) |                |  |                          | < 
1 2                      3                4  5                         5  6 

poi   [ ( ke'a                      )            << melbi     >> ] ku'o > \  
which [ ( (relative clause link) #5 ) [is, does] << beautiful >> ]      >  | 
      [ ( melbi1 (melbi place)      )            <<           >> ]      >  | 
      7 8                           8            9            9  7      6 4  

\  ) cu << bajra >> ] 
 | )    << runs  >> ] 
 | )    <<       >> ] 
3  2    10       10 1 

".
Example C81_case : parse_tree ex_out /\ exists cs, ex_block = Ok cs /\ print_block 78 cs = Ok (letters ex_page) /\
  word_row cs = letters "[ (  / ge mi gi  /  / le gerku ku \ < poi [ ( ke'a ) << melbi >> ] ku'o > \ \ ) cu << bajra >> ] " /\
  firstn 7 (label_rows cs None) = map letters ["[ "; "1 "; "( "; "2 "; "bajra1 (bajra place) "; "| "; "3 "].
Proof. split; [exact ex_out_parses |]. eexists. split; [vm_compute; reflexivity |]. split; [| split]; vm_compute; reflexivity. Qed.

(* The condition is needed: a quotation of 600 letters is written past the end of the buffer. *)
Definition fits_b (e : ev) : bool := match e with B b => Nat.ltb (wide b) 512 | Rest _ => true end.
Definition ex_long : tree := DrvProps.ex_zoi (string_of_list_ascii (repeat "a"%char 600)).
Lemma run_output t cs : DrvProps.ex_run [] t = Ok cs -> do_output ex_dict ex_adv ex_unk (ex_props t []) (add_bracketing_tags (ex_rb t) (expand_bahe_ui t)) = Ok cs.
Proof. intro H. exact H. Qed.
Theorem C81_overrun_refuted : exists t cs, parse_tree t /\ DrvProps.ex_run [] t = Ok cs /\ forall W out, print_block W cs <> Ok out.
Proof.
  assert (T : parse_tree ex_long) by (apply parse_treeb_ok; vm_compute; reflexivity).
  assert (X : exists cs, DrvProps.ex_run [] ex_long = Ok cs /\ match blocks_of (map op_of cs) with Some evs => forallb fits_b evs | None => true end = false).
  { assert (Y : match DrvProps.ex_run [] ex_long with Ok cs => match blocks_of (map op_of cs) with Some evs => forallb fits_b evs | None => true end | _ => true end = false) by (vm_compute; reflexivity).
    revert Y. generalize (DrvProps.ex_run [] ex_long). intros [cs | | | | ] Y; [exists cs; auto | exfalso; exact (diff_true_false Y) ..]. }
  destruct X as (cs & R & X). exists ex_long, cs. split; [exact T |]. split; [exact R |]. intros W out H.
  destruct (C81_block _ _ _ _ _ _ _ T (run_output _ _ R)) as (evs & E & S & _). rewrite E in X. pose proof (LayoutProofs4.driver_narrow W _ _ out E S H) as N.
  assert (Y : forallb fits_b evs = true).
  { apply forallb_forall. intros e I. rewrite Forall_forall in N. specialize (N e I). destruct e; [| reflexivity]. apply Nat.ltb_lt. exact (proj1 N). }
  rewrite Y in X. discriminate X.
Qed.
Print Assumptions C81_overrun_refuted.
