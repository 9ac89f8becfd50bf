(* The interlinear output of a parse tree: the calls of output.c taken by textblk.c. *)
From Coq Require Import String Ascii List NArith ZArith Bool Arith.
From Verif Require Import Base OutModel LayoutModel.
From Verif Require TransModel.
Import TransModel(zdec).
Import ListNotations.
Local Open Scope string_scope.

(* nodes.h:33-42, as LayoutModel has it *)
Definition br (b : OutModel.bracket) : LayoutModel.bracket :=
  match b with
  | OutModel.BR_NONE => BR_NONE | OutModel.BR_ROUND => BR_ROUND | OutModel.BR_SQUARE => BR_SQUARE | OutModel.BR_BRACE => BR_BRACE
  | OutModel.BR_ANGLE => BR_ANGLE | OutModel.BR_CEIL => BR_CEIL | OutModel.BR_FLOOR => BR_FLOOR | OutModel.BR_TRIANGLE => BR_TRIANGLE
  end.
(* the members of text_block_driver (textblk.c:407-422) called by output.c; subscripts are
   printed with %d (textblk.c:255, 261, 317, 323) *)
Definition op_of (c : call) : op :=
  match c with
  | OutModel.Open b n => Open (br b) (lit (zdec (Z.of_nat n)))
  | OutModel.Close b n => Close (br b) (lit (zdec (Z.of_nat n)))
  | OutModel.Eols n => Eols (N.of_nat n)
  | OutModel.Loj s => Loj (lit s)
  | OutModel.Eng s => Trans (lit s)
  | OutModel.StartTags => StartTags
  | OutModel.EndTags => EndTags
  | OutModel.StartTag => StartTag
  | OutModel.TagText a b c d => TagText (lit a) (lit b) (lit c) d
  | OutModel.Partial s => PartTag (lit s)
  end.
(* output.c:1505-1515 do_output with text_block_driver (main.c:320); width is
   opt_output_width *)
Definition print_block (width : Z) (cs : list call) : outcome txt := run_driver width (map op_of cs).
