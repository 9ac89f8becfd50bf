(* terms.c: the walk that collects the terms of each bridi, finds the words that head its
   selbri and gives the terms their labels.  Messages on standard error are left out, and so
   is prop_term_vectors, which nothing reads. *)
From Coq Require Import String List NArith ZArith Bool Arith.
From Verif Require Import Base TokData CmavoData TokModel TreeModel TermsModel.
From Verif Require OutModel PassModel.
Import OutModel(term_tag, TTT_BRIVLA, TTT_JAITAG, TTT_ABSTRACTION, TTT_ME, TTT_NUMBERMOI, TTT_GOhA, TTT_NUhA, TTT_ZEI).
Import ListNotations.
Open Scope string_scope.
Open Scope list_scope.

(* a node with its path *)
Definition here : Type := list nat * tree.

(* functions.c:494-503 child_ref *)
Definition child_ref (x : here) (i : nat) : outcome here :=
  match snd x with
  | NT _ ch => match nth_error ch i with Some c => Ok (fst x ++ [i], c) | None => Abort end
  | Leaf _ => Abort
  end.
(* functions.c:512-536 find_nth_child; None is NULL *)
Definition find_child (x : here) (n : nat) (ty : string) : outcome (option here) :=
  match snd x with
  | NT _ ch =>
      Ok match find_nth_child 0 ch n ty with
         | Some i => match nth_error ch i with Some c => Some (fst x ++ [i], c) | None => None end
         | None => None
         end
  | Leaf _ => Abort
  end.
(* a pointer that is followed *)
Definition deref (o : option here) : outcome here := match o with Some x => Ok x | None => UB UB_null end.
(* assert(pointer) *)
Definition asserted (o : option here) : outcome here := match o with Some x => Ok x | None => Abort end.
(* functions.c:460-465 type_check *)
Definition type_check (x : here) (ty : string) : outcome unit := if is_nt ty (snd x) then Ok tt else Abort.
(* functions.c:476-481 nch *)
Definition nch (x : here) : outcome nat := match snd x with NT _ ch => Ok (List.length ch) | Leaf _ => Abort end.
(* x->data.nonterm.type *)
Definition type_of (x : here) : outcome string := match snd x with NT ty _ => Ok ty | Leaf _ => UB UB_other end.
(* functions.c:629-636 maybe_strip_attitudinal, with the path *)
Definition stripped (x : here) : outcome here :=
  do (r, s) <- maybe_strip_attitudinal (snd x); Ok (fst x ++ r, s).

(* terms.c:197-224 recover_se_conv and 226-265 recover_fa_conv: the cmavo after
   strip_attitudinal and the assertion about its selma'o *)
Definition cmavo_for (s : tok) (x : here) : outcome string :=
  do (_, y) <- strip_attitudinal (snd x);
  match y with
  | Leaf n =>
      match dat n with
      | N_CMAVO t _ _ => if tok_eqb t s then Ok (text_of n) else Abort
      | _ => UB UB_other
      end
  | NT _ _ => UB UB_other
  end.
Definition recover_se_conv (x : here) : outcome nat :=
  do w <- cmavo_for T_SE x;
  if String.eqb w "se" then Ok 2 else if String.eqb w "te" then Ok 3
  else if String.eqb w "ve" then Ok 4 else if String.eqb w "xe" then Ok 5 else Abort.
Definition recover_fa_conv (x : here) : outcome nat :=
  do w <- cmavo_for T_FA x;
  if String.eqb w "fi'a" then Ok 0 else if String.eqb w "fa" then Ok 1 else if String.eqb w "fe" then Ok 2
  else if String.eqb w "fi" then Ok 3 else if String.eqb w "fo" then Ok 4 else if String.eqb w "fu" then Ok 5
  else if String.eqb w "fai" then Ok FAI_OFFSET else Abort.

(* terms.c:325-366 and 1595-1636: what sort of term it is; None if it is not put in a vector *)
Definition term_entry (t : here) : outcome (option term) :=
  do tc <- child_ref t 0;
  do ty <- type_of tc;
  if String.eqb ty "TERM_PLAIN_SUMTI" then Ok (Some (TRM_POS (fst t)))
  else if String.eqb ty "TERM_PLACED_SUMTI" then
    do tcc <- child_ref tc 0;
    do pos <- recover_fa_conv tcc;
    Ok (Some (if Nat.eqb pos 0 then TRM_FAhI (fst t) else TRM_FA pos (fst t)))
  else if String.eqb ty "TERM_TAGGED_SUMTI" || String.eqb ty "TAGGED_TERMSET" then Ok (Some (TRM_TAG (fst t)))
  else Ok None.
(* tv.nodes[tv.n_nodes] = ... *)
Definition room (v : list term) : outcome unit :=
  if Nat.ltb (List.length v) MAX_TERMS_IN_VECTOR then Ok tt else UB UB_bounds.

(* terms.c:298-323: from a TERMS_1 to its TERM, if there is but one *)
Definition only_term (t1 : here) : outcome (option here) :=
  do _ <- type_check t1 "TERMS_1";
  do n <- nch t1;
  if Nat.ltb 1 n then Ok None
  else
    do t2 <- child_ref t1 0;
    do _ <- type_check t2 "TERMS_2";
    do n <- nch t2;
    if Nat.ltb 1 n then Ok None
    else do t <- child_ref t2 0; do _ <- type_check t "TERM"; Ok (Some t).
(* one pass of the loop at terms.c:285-368; v is what the vector holds, in natural order
   (vv holds it backwards) *)
Definition tv_step (t1 : here) (v : list term) : outcome (list term) :=
  do t <- only_term t1;
  match t with
  | None => Ok v
  | Some t =>
      do e <- term_entry t;
      match e with None => Ok v | Some e => do _ <- room v; Ok (e :: v) end
  end.
(* terms.c:285-368 the loop *)
Fixpoint tv_loop (p : path) (xx : tree) (v : list term) : outcome (list term) :=
  match xx with
  | Leaf _ => UB UB_other
  | NT _ [t1] => tv_step (p ++ [0], t1) v
  | NT _ [xx; t1] => do v <- tv_step (p ++ [1], t1) v; tv_loop (p ++ [0]) xx v
  | NT _ _ => Abort
  end.
(* terms.c:267-373 tv_build *)
Definition tv_build (x : here) : outcome (list term) :=
  do _ <- type_check x "TERMS"; tv_loop (fst x) (snd x) [].

(* what is left on the nodes: prop_term_tags, prop_conversion, prop_dont_gloss,
   prop_require_brac, prop_done_tu1 *)
Inductive effect : Type :=
| Tagged (term : path) (t : term_tag)
| Converted (x : path) (n : nat)
| NoGloss (x : path)
| Brackets (x : path)
| Done (tu1 : path).

(* terms.c:68-85 LinkConv with the node of a SE *)
Definition chain : Type := list (link_conv * path).
(* terms.c:142-185 *)
Definition append (lc : chain) (e : link_conv) (n : path) : outcome chain :=
  if Nat.ltb (List.length lc) MAX_TERMS_IN_VECTOR then Ok (lc ++ [(e, n)]) else Abort.

(* terms.c:456-494 fixup_term_place: the label; mk is *tt *)
Definition label (mk : Z -> term_tag) (f : fixup) : effect :=
  Tagged (fst f)
    match pl_type (snd f) with
    | PT_ORD => mk (Z.of_nat (pl_pos (snd f)))
    | PT_TAG t u => TTT_JAITAG t u (Z.of_nat (pl_pos (snd f)))
    | PT_JAI => mk (Z.of_nat (pl_pos (snd f)))      (* not reached: terms.c:490-492 *)
    end.
(* terms.c:618-708 assign_places *)
Definition give_places (pre post : list term) (lc : chain) (mk : Z -> term_tag) : outcome (list effect) :=
  do fs <- assign_places pre post (map fst lc); Ok (map (label mk) fs).
(* terms.c:577-609: the SE that are not to be glossed, from the end of the chain to a jai
   with a tag *)
Fixpoint silent (lc : chain) : list effect :=
  match lc with
  | [] => []
  | (LC_SE _, n) :: lc => NoGloss n :: silent lc
  | (LC_TAG _ _, _) :: _ => []
  | _ :: lc => silent lc
  end.
(* terms.c:560-616 assign_conversion *)
Definition give_conversion (lc : chain) (x : path) : outcome (list effect) :=
  do n <- assign_conversion (map fst lc); Ok (silent (rev lc) ++ [Converted x n]).
(* both, as at terms.c:728-729, 754-755, 768-769, 883-884, 903-904 *)
Definition give_both (pre post : list term) (lc : chain) (mk : Z -> term_tag) (x : path) : outcome (list effect) :=
  do a <- give_places pre post lc mk; do b <- give_conversion lc x; Ok (a ++ b).

(* terms.c:1589-1639 the loop of check_tu1_for_links *)
Fixpoint link_loop (fuel : nat) (la : here) (v : list term) : outcome (list term) :=
  match fuel with
  | O => NoFuel
  | S f =>
      do tm <- find_child la 1 "TERM";
      do lk <- find_child la 1 "LINKS";
      do tm <- asserted tm;
      do e <- term_entry tm;
      do v <- match e with None => Ok v | Some e => do _ <- room v; Ok (v ++ [e]) end;
      match lk with None => Ok v | Some la => link_loop f la v end
  end.
(* how deep a tree is *)
Fixpoint height (t : tree) : nat :=
  match t with Leaf _ => 0 | NT _ ch => S (list_max (map height ch)) end.
(* terms.c:1574-1646 check_tu1_for_links: the vector that is attached, if there are links *)
Definition links_of (tu1 : here) : outcome (option (list term)) :=
  do _ <- type_check tu1 "TANRU_UNIT_1";
  do n <- nch tu1;
  if Nat.ltb 1 n then
    do la <- child_ref tu1 1;
    do _ <- type_check la "LINKARGS";
    do v <- link_loop (S (height (snd la))) la []; Ok (Some v)
  else Ok None.

(* terms.c:710-1085.  All calls are on nodes further down; fuel is how far.  The property
   that prop_term_vector gives at terms.c:922 is the one made by check_tu1_for_links for the
   same node. *)
Fixpoint tu2_args (fuel : nat) (tu2 : here) (pre post : list term) (lc : chain) : outcome (list effect) :=
  match fuel with
  | O => NoFuel
  | S f =>
      (* terms.c:710-911 process_tanru_unit_2_args *)
      do _ <- type_check tu2 "TANRU_UNIT_2";
      do c <- child_ref tu2 0;
      do c1 <- stripped c;
      match snd c1 with
      | Leaf x =>
          match dat x with
          | N_CMAVO T_GOhA _ _ => give_both pre post lc (TTT_GOhA (fst c1)) (fst c1)
          | N_CMAVO T_ME _ _ =>
              do s <- find_child tu2 1 "SUMTI"; do s <- asserted s;
              do a <- give_places pre post lc (TTT_ME (fst s)); Ok (Brackets (fst s) :: a)
          | N_CMAVO T_NUhA _ _ =>
              do m <- find_child tu2 1 "MEX_OPERATOR"; do m <- deref m;
              do a <- give_both pre post lc (TTT_NUhA (fst m)) (fst c1); Ok (a ++ [Brackets (fst m)])
          | N_CMAVO _ _ _ => Ok []
          | N_BRIVLA _ _ => give_both pre post lc (TTT_BRIVLA (fst c1)) (fst c1)
          | N_ZEI _ _ _ => give_both pre post lc (TTT_ZEI (fst c1)) (fst c1)
          | _ => Abort
          end
      | NT ty ch =>
          if String.eqb ty "NUMBER_MOI_TU2" then
            do norl <- child_ref c1 0;
            match PassModel.cmavo_child 0 ch T_MOI with
            | None => UB UB_null                      (* when the label is printed *)
            | Some r =>
                do a <- give_places pre post lc (TTT_NUMBERMOI (fst norl) (fst c1 ++ r));
                Ok (a ++ match pre, post with [], [] => [] | _, _ => [Brackets (fst norl)] end)
            end
          else if String.eqb ty "KE_SELBRI3_TU2" then
            do s <- find_child c1 1 "SELBRI_3"; do s <- asserted s; selbri_3_args f s pre post lc
          else if String.eqb ty "SE_TU2" then
            do se <- child_ref c1 0;
            do t <- find_child c1 1 "TANRU_UNIT_2"; do t <- asserted t;
            do conv <- recover_se_conv se;
            do lc <- append lc (LC_SE conv) (fst se); tu2_args f t pre post lc
          else if String.eqb ty "JAI_TAG_TU2" then
            do ctag <- find_child c1 1 "TAG";
            do t <- find_child c1 1 "TANRU_UNIT_2"; do ctag <- asserted ctag; do t <- asserted t;
            do lc <- append lc (LC_TAG (fst ctag) (fst t)) [];
            do a <- tu2_args f t pre post lc; Ok (Brackets (fst t) :: a)
          else if String.eqb ty "JAI_TU2" then
            do t <- find_child c1 1 "TANRU_UNIT_2"; do t <- asserted t;
            do lc <- append lc LC_JAI []; tu2_args f t pre post lc
          else if String.eqb ty "NAHE_TU2" then
            do t <- find_child c1 1 "TANRU_UNIT_2"; do t <- asserted t; tu2_args f t pre post lc
          else if String.eqb ty "ABSTRACTION" then
            do nns <- child_ref c1 0;
            do _ <- type_check nns "NU_NAI_SEQ";
            do c <- child_ref nns 0;
            do c2 <- stripped c;
            if is_cm T_NU (snd c2) then give_both pre post lc (TTT_ABSTRACTION (fst c2)) (fst c2) else Ok []
          else Ok []
      end
  end
with tu1_args (fuel : nat) (tu1 : here) (pre post : list term) (lc : chain) : outcome (list effect) :=
  match fuel with
  | O => NoFuel
  | S f =>
      (* terms.c:913-942 process_tanru_unit_1_args *)
      do v <- links_of tu1;
      do tu2 <- child_ref tu1 0;
      do a <- match v with
              | Some v => do lc <- append lc (LC_LINKS v) []; tu2_args f tu2 pre post lc
              | None => tu2_args f tu2 pre post lc
              end;
      Ok (a ++ [Done (fst tu1)])
  end
with selbri_6_args (fuel : nat) (s6 : here) (pre post : list term) (lc : chain) : outcome (list effect) :=
  match fuel with
  | O => NoFuel
  | S f =>
      (* terms.c:944-980 process_selbri_6_args *)
      do _ <- type_check s6 "SELBRI_6";
      do n <- nch s6;
      if Nat.eqb n 1 then
        do tu <- child_ref s6 0;
        do n <- nch tu;
        if Nat.ltb 1 n then Ok []
        else do tu1 <- child_ref tu 0; tu1_args f tu1 pre post lc
      else
        do tu <- find_child s6 1 "TANRU_UNIT";
        match tu with
        | Some _ => do c <- find_child s6 1 "SELBRI_6"; do c <- deref c; selbri_6_args f c pre post lc
        | None =>
            do s <- find_child s6 1 "SELBRI";
            do c <- find_child s6 1 "SELBRI_6";
            do s <- deref s; do a <- selbri_args f s pre post lc;
            do c <- deref c; do b <- selbri_6_args f c pre post lc;
            Ok (a ++ b)
        end
  end
with selbri_5_args (fuel : nat) (s5 : here) (pre post : list term) (lc : chain) : outcome (list effect) :=
  match fuel with
  | O => NoFuel
  | S f =>
      (* terms.c:982-995 process_selbri_5_args: one pass of the loop, then the rest *)
      do s6 <- find_child s5 1 "SELBRI_6"; do s6 <- deref s6;
      do a <- selbri_6_args f s6 pre post lc;
      do c <- find_child s5 1 "SELBRI_5";
      match c with None => Ok a | Some c => do b <- selbri_5_args f c pre post lc; Ok (a ++ b) end
  end
with selbri_4_loop (fuel : nat) (s4 : here) (pre post : list term) (lc : chain) : outcome (list effect) :=
  match fuel with
  | O => NoFuel
  | S f =>
      (* terms.c:1019-1033: one pass of the loop, then the rest *)
      do s5 <- find_child s4 1 "SELBRI_5";
      do a <- match s5 with
              | Some s5 => selbri_5_args f s5 pre post lc
              | None =>
                  do k <- find_child s4 1 "KE_SELBRI_3"; do k <- asserted k;
                  do s3 <- find_child k 1 "SELBRI_3"; do s3 <- asserted s3; selbri_3_args f s3 pre post lc
              end;
      do c <- find_child s4 1 "SELBRI_4";
      match c with None => Ok a | Some c => do b <- selbri_4_loop f c pre post lc; Ok (a ++ b) end
  end
with selbri_3_args (fuel : nat) (s3 : here) (pre post : list term) (lc : chain) : outcome (list effect) :=
  match fuel with
  | O => NoFuel
  | S f =>
      (* terms.c:997-1040 process_selbri_3_args *)
      do _ <- type_check s3 "SELBRI_3";
      do s4 <- find_child s3 1 "SELBRI_4"; do s4 <- deref s4;
      do n <- nch s4;
      if Nat.ltb 1 n then selbri_4_loop f s4 pre post lc
      else do s5 <- find_child s4 1 "SELBRI_5"; do s5 <- deref s5; selbri_5_args f s5 pre post lc
  end
with selbri_args (fuel : nat) (s : here) (pre post : list term) (lc : chain) : outcome (list effect) :=
  match fuel with
  | O => NoFuel
  | S f =>
      (* terms.c:1042-1085 process_selbri_args; the second pass of the loop at 1054-1063 is
         a call on the inner selbri, whose type the search has checked *)
      do _ <- type_check s "SELBRI";
      do s1 <- find_child s 1 "SELBRI_1"; do s1 <- deref s1;
      do s2 <- find_child s1 1 "SELBRI_2";
      match s2 with
      | None => do c <- find_child s1 1 "SELBRI"; do c <- asserted c; selbri_args f c pre post lc
      | Some s2 =>
          do s3 <- child_ref s2 0;
          do n <- nch s2;
          if Nat.ltb 1 n then
            do a <- selbri_3_args f s3 pre [] lc;
            do b <- co_args f s2 post lc;
            Ok (a ++ b)
          else selbri_3_args f s3 pre post lc
      end
  end
with co_args (fuel : nat) (s2 : here) (post : list term) (lc : chain) : outcome (list effect) :=
  match fuel with
  | O => NoFuel
  | S f =>
      (* terms.c:1074-1079: down to the last selbri_2 *)
      do n <- nch s2;
      if Nat.ltb 1 n then do c <- find_child s2 1 "SELBRI_2"; do c <- deref c; co_args f c post lc
      else do s3 <- child_ref s2 0; selbri_3_args f s3 [] post lc
  end.

(* fuel for a node *)
Definition depth (x : here) : nat := S (height (snd x)).
(* process_selbri_args with an empty chain *)
Definition selbri_terms (s : here) (pre post : list term) : outcome (list effect) := selbri_args (depth s) s pre post [].
(* terms.c:1086-1119 process_main_selbri *)
Definition main_selbri (ms : here) (pre post : list term) : outcome (list effect) :=
  do _ <- type_check ms "MAIN_SELBRI"; do s <- child_ref ms 0; selbri_terms s pre post.

(* the terms of a TAIL_TERMS child, before those of outer tails: terms.c:1134-1146, 1169-1186,
   1221-1236, 1271-1286.  None if there are none. *)
Definition tail_of (x : here) : outcome (option (list term)) :=
  do t <- find_child x 1 "TAIL_TERMS";
  match t with
  | None => Ok None
  | Some t =>
      do s <- find_child t 1 "TERMS";
      match s with None => Ok None | Some s => do v <- tv_build s; Ok (Some v) end
  end.
Definition with_tail (x : here) (post : list term) : outcome (list term) :=
  do t <- tail_of x; match t with None => Ok post | Some v => tv_catenate v post end.
(* terms.c:403-412, 1373-1385: the node with the terms and the bridi_tail *)
Definition sentence_body (s : here) : here :=
  match snd s with
  | NT _ [NT ty ch] =>
      if String.eqb ty "NO_CU_SENTENCE" || String.eqb ty "OBSERVATIVE_SENTENCE" then (fst s ++ [0], NT ty ch) else s
  | _ => s
  end.

(* terms.c:375-426 and 1120-1354.  Calls are on nodes further down. *)
Fixpoint subsentence (fuel : nat) (ss : here) (pre post : list term) : outcome (list effect) :=
  match fuel with
  | O => NoFuel
  | S f =>
      (* terms.c:375-426 process_subsentence; a second pass of the loop is a call on the inner
         subsentence.  The type_check in the loop is always that of the first node; here each
         node but the last is checked, which makes no difference for parse trees. *)
      do _ <- type_check ss "SUBSENTENCE";
      do n <- nch ss;
      if Nat.eqb n 2 then do c <- child_ref ss 1; subsentence f c pre post
      else
        do s <- child_ref ss 0;
        do _ <- type_check s "SENTENCE";
        let b := sentence_body s in
        do terms <- find_child b 1 "TERMS";
        do bt <- find_child b 1 "BRIDI_TAIL"; do bt <- asserted bt;
        match terms with
        | Some t => do v <- tv_build t; do pre <- tv_catenate pre v; bridi_tail f bt pre post
        | None => bridi_tail f bt pre post
        end
  end
with bridi_tail_3 (fuel : nat) (bt : here) (pre post : list term) : outcome (list effect) :=
  match fuel with
  | O => NoFuel
  | S f =>
      (* terms.c:1120-1191 process_bridi_tail_3 *)
      do _ <- type_check bt "BRIDI_TAIL_3";
      do c1 <- child_ref bt 0;
      do ty <- type_of c1;
      if String.eqb ty "MAIN_SELBRI" then do post <- with_tail bt post; main_selbri c1 pre post
      else do _ <- type_check c1 "GEK_SENTENCE"; gek_sentence f c1 pre post
  end
with gek_sentence (fuel : nat) (gs : here) (pre post : list term) : outcome (list effect) :=
  match fuel with
  | O => NoFuel
  | S f =>
      (* terms.c:1158-1186: down to the gek, then both subsentences *)
      do c <- child_ref gs 0;
      if is_nt "GEK" (snd c) then
        do s1 <- find_child gs 1 "SUBSENTENCE"; do s2 <- find_child gs 2 "SUBSENTENCE";
        do s1 <- asserted s1; do s2 <- asserted s2;
        do post <- with_tail gs post;
        do a <- subsentence f s1 pre post; do b <- subsentence f s2 pre post; Ok (a ++ b)
      else do c <- find_child gs 1 "GEK_SENTENCE"; do c <- deref c; gek_sentence f c pre post
  end
with bridi_tail_2 (fuel : nat) (bt : here) (pre post : list term) : outcome (list effect) :=
  match fuel with
  | O => NoFuel
  | S f =>
      (* terms.c:1192-1241 process_bridi_tail_2 *)
      do n <- nch bt;
      if Nat.eqb n 1 then do c <- child_ref bt 0; bridi_tail_3 f c pre post
      else
        do a <- find_child bt 1 "BRIDI_TAIL_2"; do a <- asserted a;
        do b <- find_child bt 2 "BRIDI_TAIL_2"; do b <- asserted b;
        do post <- with_tail bt post;
        do x <- bridi_tail_2 f a pre post; do y <- bridi_tail_2 f b pre post; Ok (x ++ y)
  end
with bridi_tail_1 (fuel : nat) (bt : here) (pre post : list term) : outcome (list effect) :=
  match fuel with
  | O => NoFuel
  | S f =>
      (* terms.c:1242-1291 process_bridi_tail_1 *)
      do n <- nch bt;
      if Nat.eqb n 1 then do c <- child_ref bt 0; bridi_tail_2 f c pre post
      else
        do a <- find_child bt 1 "BRIDI_TAIL_1"; do a <- asserted a;
        do b <- find_child bt 1 "BRIDI_TAIL_2"; do b <- asserted b;
        do post <- with_tail bt post;
        do x <- bridi_tail_1 f a pre post; do y <- bridi_tail_2 f b pre post; Ok (x ++ y)
  end
with bridi_tail (fuel : nat) (bt : here) (pre post : list term) : outcome (list effect) :=
  match fuel with
  | O => NoFuel
  | S f =>
      (* terms.c:1292-1354 process_bridi_tail.  Without terms after it the first part is
         processed with new_post, which has not been set: every use reads n_nodes *)
      do n <- nch bt;
      if Nat.eqb n 1 then do c <- child_ref bt 0; bridi_tail_1 f c pre post
      else
        do b <- find_child bt 1 "BRIDI_TAIL"; do b <- asserted b;
        do a <- find_child bt 1 "BRIDI_TAIL_1"; do a <- asserted a;
        do t <- tail_of bt;
        match t with
        | None => UB UB_uninit
        | Some v =>
            do post <- tv_catenate v post;
            do x <- bridi_tail_1 f a pre post; do y <- bridi_tail f b pre post; Ok (x ++ y)
        end
  end.

(* terms.c:1355-1428 process_statement_3 *)
Definition statement_3 (x : here) : outcome (list effect) :=
  do n <- nch x;
  if Nat.eqb n 1 then
    do sent <- child_ref x 0;
    do _ <- type_of sent;
    let b := sentence_body sent in
    do terms <- find_child b 1 "TERMS";
    do bt <- find_child b 1 "BRIDI_TAIL"; do bt <- asserted bt;
    do pre <- match terms with Some t => tv_build t | None => Ok [] end;
    bridi_tail (depth bt) bt pre []
  else Ok [].
(* terms.c:1429-1439 process_abstraction *)
Definition abstraction (x : here) : outcome (list effect) :=
  do ss <- child_ref x 1; do _ <- type_check ss "SUBSENTENCE"; subsentence (depth ss) ss [] [].
(* terms.c:1440-1454 process_relative_clause *)
Definition relative_clause (x : here) : outcome (list effect) :=
  do fc <- child_ref x 0;
  do ty <- type_of fc;
  if String.eqb ty "FULL_RELATIVE_CLAUSE" then
    do ss <- find_child fc 1 "SUBSENTENCE";
    match ss with Some ss => subsentence (depth ss) ss [] [] | None => Ok [] end
  else Ok [].
(* terms.c:1455-1479 process_metalinguistic *)
Definition metalinguistic (x : here) : outcome (list effect) :=
  do terms <- find_child x 1 "TERMS";
  do mm <- find_child x 1 "METALINGUISTIC_MAIN_SELBRI"; do mm <- asserted mm;
  do s <- child_ref mm 0;
  do pre <- match terms with Some t => tv_build t | None => Ok [] end;
  selbri_terms s pre [].
(* terms.c:1498-1506 *)
Definition sentence_parent (x : here) : outcome (list effect) :=
  if is_nt "STATEMENT_3" (snd x) then statement_3 x
  else if is_nt "ABSTRACTION" (snd x) then abstraction x
  else if is_nt "RELATIVE_CLAUSE" (snd x) then relative_clause x
  else if is_nt "METALINGUISTIC" (snd x) then metalinguistic x
  else Ok [].
(* terms.c:1518-1548 process_sumti_5b, process_sumti_tail_1a; 1561-1565 *)
Definition selbri_in_sumti (x : here) : outcome (list effect) :=
  if is_nt "SUMTI_5B" (snd x) || is_nt "SUMTI_TAIL_1A" (snd x) then
    do s <- find_child x 1 "SELBRI"; do s <- asserted s; selbri_terms s [] []
  else Ok [].
(* terms.c:1659-1661: the vectors are made by links_of when they are needed; here it is
   checked that they can be made *)
Definition tu1_links (x : here) : outcome (list effect) :=
  if is_nt "TANRU_UNIT_1" (snd x) then do _ <- links_of x; Ok [] else Ok [].

(* terms.c:1480-1517, 1549-1573, 1647-1669: a node, then its children *)
Fixpoint scan (at_node : here -> outcome (list effect)) (p : path) (x : tree) : outcome (list effect) :=
  match x with
  | Leaf _ => Ok []
  | NT _ ch =>
      do a <- at_node (p, x);
      do b <- (fix go (i : nat) (l : list tree) : outcome (list effect) :=
                 match l with
                 | [] => Ok []
                 | c :: l => do a <- scan at_node (p ++ [i]) c; do b <- go (S i) l; Ok (a ++ b)
                 end) 0 ch;
      Ok (a ++ b)
  end.

(* prop_done_tu1(x, NO) *)
Definition is_done (es : list effect) (p : path) : bool :=
  existsb (fun e => match e with Done q => if list_eq_dec Nat.eq_dec q p then true else false | _ => false end) es.
(* terms.c:1680-1701 *)
Definition leftover (es : list effect) (x : here) : outcome (list effect) :=
  if is_nt "TANRU_UNIT_1" (snd x) then
    do v <- links_of x;
    match v with
    | Some v =>
        if is_done es (fst x) then Ok []
        else
          do tu2 <- child_ref x 0;
          do a <- tu2_args (depth tu2) tu2 [] [] [(LC_LINKS v, [])]; Ok (a ++ [Done (fst x)])
    | None => Ok []
    end
  else Ok [].
(* terms.c:1671-1710 scan_tu1_phase2; es are the effects so far, which tell what is done *)
Fixpoint phase2 (es : list effect) (p : path) (x : tree) : outcome (list effect) :=
  match x with
  | Leaf _ => Ok []
  | NT _ ch =>
      do a <- leftover es (p, x);
      do b <- (fix go (es : list effect) (i : nat) (l : list tree) : outcome (list effect) :=
                 match l with
                 | [] => Ok []
                 | c :: l => do a <- phase2 es (p ++ [i]) c; do b <- go (es ++ a) (S i) l; Ok (a ++ b)
                 end) (es ++ a) 0 ch;
      Ok (a ++ b)
  end.
(* terms.c:1712-1718 terms_processing *)
Definition terms_processing (top : tree) : outcome (list effect) :=
  do _ <- scan tu1_links [] top;
  do a <- scan sentence_parent [] top;
  do b <- scan selbri_in_sumti [] top;
  do c <- phase2 (a ++ b) [] top;
  Ok (a ++ b ++ c).
