(* C41, C42: the report on superfluous terminators. *)
From Coq Require Import String List NArith Bool Arith.
From Verif Require Import Base TokData TokModel StreamModel StreamSpec ElideModel ElideSpec ElideProofs6.
Import ListNotations.
Open Scope list_scope.

(* for every text of meaningful tokens, every parser and any sequence of shifts, reductions,
   requests and skips a parser makes: with the report switched on the parser receives
   what it receives without, and no access leaves the buffer or reads an unset cell *)
Theorem C41_stream : forall can_shift verbose ts, Forall good ts -> forall es, allowed ts view0 es ->
  exists l, trace can_shift verbose ts es state0 = Ok l /\ serve ts (requests es) stream0 = Ok (tokens_in l).
Proof. exact trace_stream. Qed.
Print Assumptions C41_stream.

(* what is printed at each shift: nothing inside a group of terminators; at the token that
   ends the group the sets that [said] and [table] describe, for the hazards met *)
Theorem C42_report : forall can_shift verbose ts, Forall good ts -> forall es, allowed ts view0 es ->
  exists l, trace can_shift verbose ts es state0 = Ok l /\ follows can_shift verbose ts view0 es l.
Proof. exact trace_follows. Qed.
Print Assumptions C42_report.

Definition cmavo (s : tok) (c : N) (free : bool) : node := Node (N_CMAVO s c free) 1 1 None false None [].
Definition klama : node := Node (N_BRIVLA "klama"%string BVT_GISMU) 1 1 None false None [].
Definition kei := cmavo T_KEI 717 false.
Definition ku := cmavo T_KU 756 false.
Definition cu := cmavo T_CU 266 false.
Definition boi (free : bool) := cmavo T_BOI 157 free.
Definition pa := cmavo T_PA 1000 false.
Definition moi := Node (N_MARKER T_PRIVATE_NUMBER_MOI) 1 1 None false None [].

(* klama kei ku cu klama, in a parser that could take ku, cu and klama in state 1, and
   klama in state 2 *)
Definition can (s : nat) (v : tok) : bool :=
  match s, v with 1, T_KU | 1, T_CU | 1, T_BRIVLA | 2, T_BRIVLA => true | _, _ => false end.
Example C42_example :
  let ts := [klama; kei; ku; cu; klama] in
  let es := [E_lex; E_shift 0; E_lex; E_reduce 1 false; E_shift 3; E_lex; E_shift 2; E_lex; E_reduce 3 true; E_shift 1; E_lex; E_shift 0] in
  Forall good ts /\ allowed ts view0 es /\
  trace can false ts es state0 = Ok (
    [An_token (Some T_BRIVLA, Ptr klama); An_report []; An_token (Some T_KEI, Ptr kei); An_report [];
     An_token (Some T_KU, Ptr ku); An_report []; An_token (Some T_CU, Ptr cu); An_report []; An_token (Some T_BRIVLA, Ptr klama);
     An_report [R_banner ["kei"; "ku"; "cu"]; R_pattern 1 ["kei"; "ku"]; R_pattern 2 ["kei"; "cu"]]])%string.
Proof.
  split; [|split; [|vm_compute; reflexivity]].
  - repeat constructor; discriminate.
  - repeat split; try discriminate; auto.
Qed.
(* with the table of hazards *)
Example C42_verbose_example :
  trace can true [kei; ku; klama] [E_lex; E_shift 1; E_lex; E_shift 0; E_lex; E_reduce 0 true; E_shift 0] state0 = Ok (
    [An_token (Some T_KEI, Ptr kei); An_report []; An_token (Some T_KU, Ptr ku); An_report []; An_token (Some T_BRIVLA, Ptr klama);
     An_report [R_hazards ["kei"; "ku"] [[]; [true]; [true; false]]; R_banner ["kei"; "ku"]; R_pattern 1 ["kei"]]])%string.
Proof. vm_compute. reflexivity. Qed.

(* the limit in [allowed]: when a group of 32 tokens fills the buffer and a subscript is
   completed after its last token was shifted, a flag behind the buffer is written *)
Theorem C41_overrun_refuted : exists ts es, Forall good ts /\ List.length ts = 32 /\ (forall l, serve ts (requests es) stream0 = Ok l -> List.length l = 32) /\
  trace (fun _ _ => false) false ts es state0 = UB UB_bounds.
Proof.
  exists (repeat ku 31 ++ [pa]), (concat (repeat [E_lex; E_shift 0] 32) ++ [E_reduce 0 true]).
  split; [|split; [reflexivity|split; [|vm_compute; reflexivity]]].
  - apply Forall_app. split; [apply Forall_forall; intros x Hx; apply repeat_spec in Hx; subst x|]; repeat constructor; discriminate.
  - intros l. vm_compute. intro H. injection H as <-. reflexivity.
Qed.
Print Assumptions C41_overrun_refuted.

(* the other condition in [allowed]: a skip after an error within a group does not reach
   the buffered tokens: the parser is given ku where without the report it is given .i *)
Theorem C41_advance_refuted : exists ts es l l', Forall good ts /\ trace (fun _ _ => false) false ts es state0 = Ok l /\
  serve ts (requests es) stream0 = Ok l' /\ tokens_in l <> l'.
Proof.
  exists [ku; ku; cmavo T_I 600 false; klama], [E_lex; E_shift 0; E_advance None; E_lex]. eexists _, _.
  split; [repeat constructor; discriminate|]. split; [vm_compute; reflexivity|]. split; [vm_compute; reflexivity|]. discriminate.
Qed.
Print Assumptions C41_advance_refuted.

(* the memory of a number before the group ([v_single]) is of the last token that was not
   in a group: pa boi moi keeps boi, ku pa boi moi is told to omit it *)
Theorem C42_number_refuted : exists ts ts' es l l', Forall good ts /\ ts' = ku :: ts /\
  trace (fun _ _ => false) false ts es state0 = Ok l /\ trace (fun _ _ => false) false ts' (E_lex :: E_shift 0 :: es) state0 = Ok l' /\
  (forall r, In (An_report r) l -> r = []) /\ In (An_report [R_omit ["boi"%string]]) l'.
Proof.
  exists [pa; boi false; moi]. eexists. exists [E_lex; E_shift 0; E_lex; E_shift 0; E_lex; E_shift 0]. eexists _, _.
  split; [repeat constructor; discriminate|]. split; [reflexivity|]. split; [vm_compute; reflexivity|]. split; [vm_compute; reflexivity|]. split.
  - cbn [In]. intros r H. repeat (destruct H as [H|H]; [congruence|]). contradiction.
  - cbn [In]. do 7 right. left. reflexivity.
Qed.
Print Assumptions C42_number_refuted.
