(* Model of categ.c: insertion of look-ahead markers into the token list.
   The ring is a list as in TokModel.v: [pre] holds the nodes before the current
   one, nearest first, [post] the current one and what follows; an empty list
   stands for the list head.  The head is a static node with all fields zero
   (lex2.c:38), so it is neither a cmavo nor a marker of any tested kind. *)
From Coq Require Import String List NArith Bool.
From Verif Require Import Base Arr DfaModel DfaTables TokData TokModel.
Import ListNotations.
Open Scope N_scope.
Open Scope list_scope.

(* start_line, start_column of the first node of a list; of the head if empty *)
Definition place (l : list node) : N * N :=
  match l with [] => (0, 0) | y :: _ => (line y, col y) end.

(* categ.c:21-50 insert_marker_after, insert_marker_before: the new node; the
   position is copied from the node [where], here the first node of [where] *)
Definition marker (t : tok) (wher : list node) : node :=
  Node (N_MARKER t) (fst (place wher)) (snd (place wher)) None false None [].

(* if (cmtest(y, t)) y = y->prev (or ->next) for each t in turn: the nodes
   stepped over, nearest first, and the rest (e.g. categ.c:80-81, 158) *)
Fixpoint over (ts : list tok) (l : list node) : list node * list node :=
  match ts with
  | [] => ([], l)
  | t :: ts =>
      match l with
      | y :: l' => if cmtest y t then let (a, b) := over ts l' in (y :: a, b) else over ts l
      | [] => ([], [])
      end
  end.

(* categ.c:79-83: back over [ts], then insert marker [m] after the node reached *)
Definition insert_back (ts : list tok) (m : tok) (pre : list node) : list node :=
  let (a, b) := over ts pre in a ++ marker m b :: b.

(* a pass for connectives whose core word is [c] (back over [ts], start marker
   [m], no end marker): categ.c:93-109 (gihek), 111-127 (ek), 129-144 (guhek) *)
Fixpoint open_pass (c : tok) (ts : list tok) (m : tok) (pre post : list node) : list node :=
  match post with
  | [] => rev pre
  | x :: post =>
      if cmtest x c then open_pass c ts m (x :: insert_back ts m pre) post
      else open_pass c ts m (x :: pre) post
  end.

(* how one core word is bracketed: words before it, start marker, words after
   it, end marker *)
Record closed_conn : Set := ClosedConn {
  k_core : tok; k_back : list tok; k_start : tok; k_fwd : list tok; k_end : tok
}.

(* a pass for connectives with an end marker: categ.c:72-91 (jek), 146-175
   (joik).  The C loop next visits the words stepped over and the end marker;
   none of them is a core word, so the model continues after them. *)
Fixpoint closed_pass (fuel : nat) (ks : list closed_conn) (pre post : list node)
  : outcome (list node) :=
  match fuel with
  | O => NoFuel
  | S fuel =>
      match post with
      | [] => Ok (rev pre)
      | x :: post =>
          match find (fun k => cmtest x (k_core k)) ks with
          | Some k =>
              let (a, b) := over (k_fwd k) post in
              closed_pass fuel ks
                (marker (k_end k) b :: rev a ++ x :: insert_back (k_back k) (k_start k) pre) b
          | None => closed_pass fuel ks (x :: pre) post
          end
      end
  end.

(* categ.c:72-91 categorize_jek *)
Definition jek_conn : closed_conn :=
  ClosedConn T_JA [T_SE; T_NA] T_PRIVATE_START_JEK [T_NAI] T_PRIVATE_END_JEK.
Definition categorize_jek (l : list node) : outcome (list node) :=
  closed_pass (S (List.length l)) [jek_conn] [] l.

(* categ.c:93-109 categorize_gihek *)
Definition categorize_gihek (l : list node) : list node :=
  open_pass T_GIhA [T_SE; T_NA] T_PRIVATE_START_GIHEK [] l.

(* categ.c:111-127 categorize_ek *)
Definition categorize_ek (l : list node) : list node :=
  open_pass T_A [T_SE; T_NA] T_PRIVATE_START_EK [] l.

(* categ.c:129-144 categorize_guhek *)
Definition categorize_guhek (l : list node) : list node :=
  open_pass T_GUhA [T_SE] T_PRIVATE_START_GUHEK [] l.

(* categ.c:146-175 categorize_joik *)
Definition joik_conns : list closed_conn :=
  [ClosedConn T_JOI [T_SE] T_PRIVATE_START_JOIK [T_NAI] T_PRIVATE_END_JOIK;
   ClosedConn T_BIhI [T_SE; T_GAhO] T_PRIVATE_START_JOIK [T_NAI; T_GAhO] T_PRIVATE_END_JOIK].
Definition categorize_joik (l : list node) : outcome (list node) :=
  closed_pass (S (List.length l)) joik_conns [] l.

(* scan backwards (or forwards) for a marker: the nodes up to and including it
   and the rest; [None] if the list head is reached *)
Fixpoint seek (t : tok) (l : list node) : option (list node * list node) :=
  match l with
  | [] => None
  | y :: l =>
      if mkrtest y t then Some ([y], l)
      else match seek t l with Some (a, b) => Some (y :: a, b) | None => None end
  end.

(* categ.c:177-214 backup_over_jek_joik at the first node of [pre]: [Some] is
   the return value 1, with the nodes stepped over and the new *xx *)
Definition backup_over_jek_joik (pre : list node)
  : outcome (option (list node * list node)) :=
  match pre with
  | [] => Ok None
  | x :: pre =>
      let back s :=
        match seek s pre with
        | None => Abort
        | Some (_, []) => Ok None
        | Some (a, b) => Ok (Some (x :: a, b))
        end in
      if mkrtest x T_PRIVATE_END_JOIK then back T_PRIVATE_START_JOIK
      else if mkrtest x T_PRIVATE_END_JEK then back T_PRIVATE_START_JEK
      else Ok None
  end.

(* categ.c:232-254: from z = first node of [pre] back to the start of the
   (chained) tense: the nodes up to the START_TENSE before which the marker
   goes, and the rest.  [fuel] counts the jumps to seek_start_tense. *)
Fixpoint seek_start_tense (fuel : nat) (pre : list node) : outcome (list node * list node) :=
  match fuel with
  | O => NoFuel
  | S fuel =>
      match seek T_PRIVATE_START_TENSE pre with
      | None => Abort
      | Some (a, b) =>
          do r <- backup_over_jek_joik b;
          match r with
          | Some (c, y :: d) =>
              if mkrtest y T_PRIVATE_END_TENSE then
                do (e, f) <- seek_start_tense fuel d;
                Ok (a ++ c ++ y :: e, f)
              else Ok (a, b)
          | _ => Ok (a, b)
          end
      end
  end.

(* put a marker before the last of the nodes [a] (nearest first) *)
Definition insert_before_last (m : tok) (a b : list node) : list node :=
  a ++ marker m (rev a) :: b.

(* categ.c:227-268: the case of GI *)
Definition gek_gi (pre : list node) : outcome (list node) :=
  match pre with
  | [] => Ok pre
  | y :: pre' =>
      if mkrtest y T_PRIVATE_END_TENSE then
        do (a, b) <- seek_start_tense (S (List.length pre)) pre;
        Ok (insert_before_last T_PRIVATE_START_GEK a b)
      else if mkrtest y T_PRIVATE_END_JOIK then
        match seek T_PRIVATE_START_JOIK pre' with
        | Some (a, b) => Ok (insert_before_last T_PRIVATE_START_GEK (y :: a) b)
        | None => Ok pre
        end
      else Ok pre
  end.

(* categ.c:216-271 categorize_gek *)
Fixpoint gek_pass (pre post : list node) : outcome (list node) :=
  match post with
  | [] => Ok (rev pre)
  | x :: post =>
      if cmtest x T_GA then gek_pass (x :: insert_back [T_SE] T_PRIVATE_START_GEK pre) post
      else if cmtest x T_GI then
        do pre <- gek_gi pre;
        gek_pass (x :: pre) post
      else gek_pass (x :: pre) post
  end.
Definition categorize_gek (l : list node) : outcome (list node) := gek_pass [] l.

(* categ.c:273-282 categorize_nahe, 827-842 categorize_naku: a marker before a
   word [a] directly followed by a word [b] *)
Fixpoint pair_pass (a b m : tok) (post : list node) : list node :=
  match post with
  | [] => []
  | x :: post' =>
      if cmtest x a && match post' with y :: _ => cmtest y b | [] => false end
      then marker m post :: x :: pair_pass a b m post'
      else x :: pair_pass a b m post'
  end.
Definition categorize_nahe : list node -> list node := pair_pass T_NAhE T_BO T_PRIVATE_NAhE_BO.
Definition categorize_naku : list node -> list node := pair_pass T_NA T_KU T_PRIVATE_NA_KU.

(* categ.c:291-350 enum StagTokens, map_stag_token *)
Definition map_stag_token (t : tok) : option N :=
  match t with
  | T_BAI => Some 0 | T_BY => Some 2 | T_CAhA => Some 3 | T_CUhE => Some 4
  | T_FAhA => Some 5 | T_FEhE => Some 6 | T_FOI => Some 7 | T_KI => Some 8
  | T_LAU => Some 9 | T_MOhI => Some 10 | T_NAhE => Some 11 | T_NAI => Some 12
  | T_PA => Some 13 | T_PU => Some 14 | T_ROI => Some 15 | T_SE => Some 16
  | T_TAhE => Some 17 | T_TEI => Some 18 | T_VA => Some 19 | T_VEhA => Some 20
  | T_VIhA => Some 21 | T_ZAhO => Some 22 | T_ZEhA => Some 23 | T_ZI => Some 24
  | _ => None
  end.

(* categ.c:360-361: token of a node; [None] is -1 *)
Definition stag_token (y : node) : option N :=
  match dat y with
  | N_CMAVO s _ _ => map_stag_token s
  | N_BU _ => Some 1
  | _ => None
  end.

(* the generated stag_next_state (stag_dfa.c) on a live state.  For token -1 the
   emitted code (dfasyn/n2d.c:1292-1312) compares it with unsigned chars, never
   finds it, and answers -1 when the default states are exhausted. *)
Definition stag_next (s : N) (t : option N) : outcome (option N) :=
  match t with
  | Some t => next_state stag_tables (Some s) t
  | None => Ok None
  end.

(* stag_exitval[s] != 0 (stag_nfa.in:11-15, 129-130) *)
Definition stag_exit (s : N) : bool :=
  match nth_error (t_exit stag_tables) (N.to_nat s) with
  | Some r => String.eqb r "SUCCESS"
  | None => false
  end.

(* categ.c:357-379: number of nodes from x to last_ok_token, and whether the
   run reached the end of the text.  [n] nodes have been read. *)
Fixpoint tense_run (s : N) (post : list node) (n : nat) (last : option nat)
  : outcome (option nat * bool) :=
  match post with
  | [] => Ok (last, true)
  | y :: post =>
      do r <- stag_next s (stag_token y);
      match r with
      | Some s => tense_run s post (S n) (if stag_exit s then Some (S n) else last)
      | None => Ok (last, false)
      end
  end.

(* categ.c:352-390 categorize_tenses.  At the end of the text without
   last_ok_token, insert_marker_after(NULL, ...) reads through the null pointer. *)
Fixpoint tense_pass (fuel : nat) (pre post : list node) : outcome (list node) :=
  match fuel with
  | O => NoFuel
  | S fuel =>
      match post with
      | [] => Ok (rev pre)
      | x :: post' =>
          do (last, at_end) <- tense_run 0 post 0 None;
          match last with
          | Some k =>
              let a := firstn k post in
              tense_pass fuel
                (marker T_PRIVATE_END_TENSE (rev a) :: rev a
                   ++ marker T_PRIVATE_START_TENSE post :: pre) (skipn k post)
          | None =>
              if at_end : bool then UB UB_null else tense_pass fuel (x :: pre) post'
          end
      end
  end.
Definition categorize_tenses (l : list node) : outcome (list node) :=
  tense_pass (S (List.length l)) [] l.

(* categ.c:392-406 straddle_ek, 423-437 straddle_gihek: [Ok None] is NULL, else
   the nodes stepped over and the rest *)
Definition straddle_open (m c : tok) (l : list node)
  : outcome (option (list node * list node)) :=
  match l with
  | x :: l =>
      if mkrtest x m then
        let (a, b) := over [T_NA; T_SE] l in
        match b with
        | y :: b =>
            if cmtest y c then
              let (d, e) := over [T_NAI] b in Ok (Some (x :: a ++ y :: d, e))
            else Abort
        | [] => Abort
        end
      else Ok None
  | [] => Ok None
  end.

(* categ.c:408-421 straddle_jek, 439-451 straddle_joik.  The C loops run past
   the list head and round the ring when there is no end marker; the model
   answers UB_other for that. *)
Definition straddle_closed (m e : tok) (l : list node)
  : outcome (option (list node * list node)) :=
  match l with
  | x :: l =>
      if mkrtest x m then
        match seek e l with
        | Some (a, b) => Ok (Some (x :: a, b))
        | None => UB UB_other
        end
      else Ok None
  | [] => Ok None
  end.
Definition straddle_jek := straddle_closed T_PRIVATE_START_JEK T_PRIVATE_END_JEK.
Definition straddle_joik := straddle_closed T_PRIVATE_START_JOIK T_PRIVATE_END_JOIK.

(* categ.c:285-289 BOKE_Lookahead *)
Inductive boke : Set := FOUND_BO | FOUND_KE | FOUND_OTHER.

(* categ.c:453-465 get_lookahead_result *)
Definition get_lookahead_result (l : list node) : boke :=
  match l with
  | x :: _ => if cmtest x T_BO then FOUND_BO else if cmtest x T_KE then FOUND_KE else FOUND_OTHER
  | [] => FOUND_OTHER
  end.

(* categ.c:467-498 lookahead: the result, the nodes before *end, and the nodes
   from *end on.  As for straddle_closed, a missing end marker is UB_other.
   [fuel] counts iterations of the while loop. *)
Fixpoint lookahead (fuel : nat) (l : list node) : outcome (boke * list node * list node) :=
  match fuel with
  | O => NoFuel
  | S fuel =>
      match l with
      | x :: l' =>
          if mkrtest x T_PRIVATE_START_TENSE then
            match seek T_PRIVATE_END_TENSE l' with
            | None => UB UB_other
            | Some (a, b) =>
                do s1 <- straddle_jek b;
                do s2 <- match s1 with Some _ => Ok s1 | None => straddle_joik b end;
                match s2 with
                | None => Ok (get_lookahead_result b, x :: a, b)
                | Some (c, d) =>
                    if match d with y :: _ => mkrtest y T_PRIVATE_START_TENSE | [] => false end then
                      do (r, e, f) <- lookahead fuel d;
                      Ok (r, (x :: a) ++ c ++ e, f)
                    else Ok (FOUND_OTHER, x :: a, b)
                end
            end
          else Ok (get_lookahead_result l, [], l)
      | [] => Ok (FOUND_OTHER, [], [])
      end
  end.
Definition look (l : list node) : outcome (boke * list node * list node) :=
  lookahead (S (List.length l)) l.

(* categ.c:500-527 categorize_ibo *)
Fixpoint ibo_pass (fuel : nat) (pre post : list node) : outcome (list node) :=
  match fuel with
  | O => NoFuel
  | S fuel =>
      match post with
      | [] => Ok (rev pre)
      | x :: y =>
          if cmtest x T_I then
            do z <- straddle_jek y;
            do z <- match z with Some _ => Ok z | None => straddle_joik y end;
            let (a, b) := match z with Some p => p | None => ([], y) end in
            do (r, c, d) <- look b;
            let pre := match r with FOUND_BO => marker T_PRIVATE_I_BO post :: pre | _ => pre end in
            ibo_pass fuel (rev c ++ rev a ++ x :: pre) d
          else ibo_pass fuel (x :: pre) y
      end
  end.
Definition categorize_ibo (l : list node) : outcome (list node) := ibo_pass (S (List.length l)) [] l.

(* categ.c:529-546 categorize_ijekjoik *)
Fixpoint ijekjoik_pass (pre post : list node) : list node :=
  match post with
  | [] => rev pre
  | x :: post' =>
      if cmtest x T_I
         && negb (match pre with y :: _ => mkrtest y T_PRIVATE_I_BO | [] => false end)
         && match post' with
            | y :: _ => mkrtest y T_PRIVATE_START_JEK || mkrtest y T_PRIVATE_START_JOIK
            | [] => false
            end
      then ijekjoik_pass (x :: marker T_PRIVATE_I_JEKJOIK post :: pre) post'
      else ijekjoik_pass (x :: pre) post'
  end.
Definition categorize_ijekjoik (l : list node) : list node := ijekjoik_pass [] l.

(* categ.c:548-577 (jek), 579-601 (ek), 603-631 (joik), 633-656 (gihek): at a
   start marker [m], skip the connective with [straddle] and look for BO or KE;
   [guard] is set for jek and joik, which are left alone after I or a tense *)
Fixpoint kebo_pass (fuel : nat) (m bo ke : tok)
         (straddle : list node -> outcome (option (list node * list node)))
         (guard : bool) (pre post : list node) : outcome (list node) :=
  match fuel with
  | O => NoFuel
  | S fuel =>
      match post with
      | [] => Ok (rev pre)
      | x :: post' =>
          if mkrtest x m
             && negb (guard && match pre with
                               | y :: _ => cmtest y T_I || mkrtest y T_PRIVATE_END_TENSE
                               | [] => false
                               end)
          then
            do z <- straddle post;
            match z with
            | None => UB UB_null
            | Some (a, b) =>
                do (r, c, d) <- look b;
                let pre := match r with
                           | FOUND_BO => marker bo post :: pre
                           | FOUND_KE => marker ke post :: pre
                           | FOUND_OTHER => pre
                           end in
                kebo_pass fuel m bo ke straddle guard (rev c ++ rev a ++ pre) d
            end
          else kebo_pass fuel m bo ke straddle guard (x :: pre) post'
      end
  end.

Definition categorize_jek_kebo (l : list node) : outcome (list node) :=
  kebo_pass (S (List.length l)) T_PRIVATE_START_JEK T_PRIVATE_JEK_BO T_PRIVATE_JEK_KE
    straddle_jek true [] l.
Definition categorize_ek_kebo (l : list node) : outcome (list node) :=
  kebo_pass (S (List.length l)) T_PRIVATE_START_EK T_PRIVATE_EK_BO T_PRIVATE_EK_KE
    (straddle_open T_PRIVATE_START_EK T_A) false [] l.
Definition categorize_joik_kebo (l : list node) : outcome (list node) :=
  kebo_pass (S (List.length l)) T_PRIVATE_START_JOIK T_PRIVATE_JOIK_BO T_PRIVATE_JOIK_KE
    straddle_joik true [] l.
Definition categorize_gihek_kebo (l : list node) : outcome (list node) :=
  kebo_pass (S (List.length l)) T_PRIVATE_START_GIHEK T_PRIVATE_GIHEK_BO T_PRIVATE_GIHEK_KE
    (straddle_open T_PRIVATE_START_GIHEK T_GIhA) false [] l.

(* categ.c:670-692: a node that counts as part of a number *)
Definition number_node (y : node) : bool :=
  match dat y with
  | N_CMAVO s _ _ =>
      match s with T_PA | T_BU | T_BY | T_LAU | T_TEI | T_FOI => true | _ => false end
  | N_BU _ => true
  | _ => false
  end.

(* categ.c:667-693: back over the number *)
Fixpoint over_number (l : list node) : list node * list node :=
  match l with
  | y :: l' => if number_node y then let (a, b) := over_number l' in (y :: a, b) else ([], l)
  | [] => ([], [])
  end.

(* categ.c:658-702 (mai), 704-748 (roi), 750-794 (moi) *)
Fixpoint number_pass (c m : tok) (pre post : list node) : list node :=
  match post with
  | [] => rev pre
  | x :: post =>
      if cmtest x c then
        match over_number pre with
        | ([], _) => number_pass c m (x :: pre) post
        | (a, b) => number_pass c m (x :: a ++ marker m b :: b) post
        end
      else number_pass c m (x :: pre) post
  end.
Definition categorize_number_mai (l : list node) : list node :=
  number_pass T_MAI T_PRIVATE_NUMBER_MAI [] l.
Definition categorize_number_roi (l : list node) : list node :=
  number_pass T_ROI T_PRIVATE_NUMBER_ROI [] l.
Definition categorize_number_moi (l : list node) : list node :=
  number_pass T_MOI T_PRIVATE_NUMBER_MOI [] l.

(* categ.c:804-817: the words that begin a free modifier.  The case
   PRIVATE_NUMBER_MAI of the C switch is kept. *)
Definition begins_free (y : node) : bool :=
  match dat y with
  | N_CMAVO s _ _ =>
      match s with
      | T_SEI | T_SOI | T_COI | T_DOI | T_PRIVATE_NUMBER_MAI | T_TO | T_XI => true
      | _ => false
      end
  | _ => false
  end.

(* x->data.cmavo.followed_by_free = b *)
Definition set_free (b : bool) (x : node) : node :=
  match dat x with N_CMAVO s c _ => set_dat (N_CMAVO s c b) x | _ => x end.

(* categ.c:796-825 mark_cmavo_before_free *)
Fixpoint mark_cmavo_before_free (l : list node) : list node :=
  match l with
  | [] => []
  | x :: l =>
      set_free (match l with y :: _ => begins_free y | [] => false end) x
        :: mark_cmavo_before_free l
  end.

(* categ.c:845-866 categorize_tokens *)
Definition categorize_tokens (l : list node) : outcome (list node) :=
  do l <- categorize_tenses l;
  do l <- categorize_jek l;
  let l := categorize_gihek l in
  let l := categorize_ek l in
  let l := categorize_guhek l in
  do l <- categorize_joik l;
  do l <- categorize_gek l;
  do l <- categorize_ibo l;
  let l := categorize_ijekjoik l in
  do l <- categorize_jek_kebo l;
  do l <- categorize_ek_kebo l;
  do l <- categorize_joik_kebo l;
  do l <- categorize_gihek_kebo l;
  let l := categorize_number_mai l in
  let l := categorize_number_roi l in
  let l := categorize_number_moi l in
  let l := categorize_nahe l in
  let l := categorize_naku l in
  Ok (mark_cmavo_before_free l).
