(* Token nodes and the token-list passes of erasure.c and lex2.c.
   The doubly linked ring with head [toks] (lex2.c:38) is modelled by a Gallina
   list; the loops carry the nodes before the current one reversed ([pre]) and
   the nodes from the current one on ([post]); an empty [pre] / [post] means the
   neighbour is the list head. *)
From Coq Require Import String List NArith Bool Arith.
From Verif Require Import Base TokData CmavoData.
Import ListNotations.
Open Scope string_scope.

(* ---------------------------------------------------------------- *)
(* cmavo table access *)

(* cmavotab.c:14-1766 (cmavo_table[code]), absent cell = empty word *)
Definition cmavo_cell (code : N) : option (string * tok) :=
  match find (fun c => N.eqb (fst (fst c)) code) cmavo_cells with
  | Some (_, w, s) => Some (w, s)
  | None => None
  end.

(* cmavo_table[code].cmavo *)
Definition cmavo_word (code : N) : string :=
  match cmavo_cell code with Some (w, _) => w | None => "" end.

(* cmavo_table[code].selmao; None is UNKNOWN (0), cmavotab.c:12 *)
Definition cmavo_selmao (code : N) : option tok :=
  match cmavo_cell code with Some (_, s) => Some s | None => None end.

(* ---------------------------------------------------------------- *)
(* Nodes *)

(* nodes.h CaiCode: value of the CAI property (lex2.c:764-807) *)
Inductive caicode : Set :=
| CC_CAI | CC_SAI | CC_RUhE | CC_CUhI | CC_PEI
| CC_CAINAI | CC_SAINAI | CC_RUhENAI | CC_PEINAI.

(* nodes.h:93-98 *)
Inductive brivla_type : Set := BVT_GISMU | BVT_LUJVO | BVT_FUIVLA3 | BVT_FUIVLA4.

(* nodes.h:18-31, 44-140 (NodeTypes and the data union) and struct treenode.
   N_NONTERM is left out: it only exists after parsing (see TreeModel).
   Fields of a node: data, start_line, start_column, bahe (link to the ba'e in
   front), the "negated indicator" property, the CAI property, and the list
   ui_next..ui_prev of attached indicators.  The eols counter is not modelled. *)
Inductive node : Type :=
| Node (d : ndata) (line col : N) (bahe : option node)
       (neg : bool) (cai : option caicode) (ui : list node)
with ndata : Type :=
| N_MARKER (t : tok)
| N_GARBAGE (w : string)
| N_CMAVO (selmao : tok) (code : N) (followed_by_free : bool)
| N_ZOI (form term text : string)
| N_ZO (text : string)
| N_LOhU (text : string)
| N_ZEI (children : list node) (sep_with_plus sep_with_zei : string)
| N_BU (w : string)
| N_BRIVLA (w : string) (ty : brivla_type)
| N_CMENE (w : string)
| N_BROKEN_ERASURE (defects : nat).

(* x->type / x->data *)
Definition dat (n : node) : ndata := match n with Node d _ _ _ _ _ _ => d end.
(* x->start_line *)
Definition line (n : node) : N := match n with Node _ l _ _ _ _ _ => l end.
(* x->start_column *)
Definition col (n : node) : N := match n with Node _ _ c _ _ _ _ => c end.
(* x->bahe *)
Definition bahe (n : node) : option node := match n with Node _ _ _ b _ _ _ => b end.
(* presence of the EX_NEGINDICATOR property *)
Definition neg (n : node) : bool := match n with Node _ _ _ _ g _ _ => g end.
(* the EX_CAIINDICATOR property *)
Definition cai (n : node) : option caicode := match n with Node _ _ _ _ _ c _ => c end.
(* list x->ui_next .. x->ui_prev *)
Definition ui (n : node) : list node := match n with Node _ _ _ _ _ _ u => u end.

(* x->type = ..; x->data = ..; *)
Definition set_dat (d : ndata) (n : node) : node :=
  match n with Node _ l c b g k u => Node d l c b g k u end.
(* x->bahe = b *)
Definition set_bahe (b : option node) (n : node) : node :=
  match n with Node d l c _ g k u => Node d l c b g k u end.
(* prop_neg_indicator(x, YES) *)
Definition set_neg (g : bool) (n : node) : node :=
  match n with Node d l c b _ k u => Node d l c b g k u end.
(* prop_cai_indicator(x, YES)->code = k *)
Definition set_cai (k : option caicode) (n : node) : node :=
  match n with Node d l c b g _ u => Node d l c b g k u end.
(* target->ui_next = start; target->ui_prev = end *)
Definition set_ui (u : list node) (n : node) : node :=
  match n with Node d l c b g k _ => Node d l c b g k u end.

(* categ.c:51-59 (cmtest); also written out inline all over lex2.c/erasure.c *)
Definition cmtest (x : node) (t : tok) : bool :=
  match dat x with N_CMAVO s _ _ => tok_eqb s t | _ => false end.

(* categ.c:61-69 (mkrtest) *)
Definition mkrtest (x : node) (t : tok) : bool :=
  match dat x with N_MARKER m => tok_eqb m t | _ => false end.

(* ---------------------------------------------------------------- *)
(* erasure.c *)

(* erasure.c:44-68: number of SI needed to erase y; None = assert(0) at line 67 *)
Definition si_require (y : node) : option nat :=
  match dat y with
  | N_ZOI _ _ _ => Some 4
  | N_ZO _ => Some 2
  | N_LOhU _ => Some 3
  | N_BRIVLA _ _ | N_CMAVO _ _ _ | N_CMENE _ => Some 1
  | N_BROKEN_ERASURE d => Some d
  | _ => None
  end.

(* erasure.c:70-82: scan over further SI while fewer than required were seen.
   [need] is require - si_got; the result is the final require - si_got and the
   position z. *)
Fixpoint eat_si (need : nat) (z : list node) : nat * list node :=
  match need with
  | O => (O, z)
  | S n =>
      match z with
      | x :: z' => if cmtest x T_SI then eat_si n z' else (need, z)
      | [] => (need, z)
      end
  end.

(* erasure.c:20-100 (handle_si).  [pre] is the reversed list of nodes before x.
   The second component of the result collects the positions for which the
   message "Unmatched SI at start of input" is printed (lines 38-42), newest
   first.  Fuel counts loop iterations. *)
Fixpoint si_loop (fuel : nat) (pre post : list node) (msgs : list (N * N))
  : outcome (list node * list (N * N)) :=
  match fuel with
  | O => NoFuel
  | S f =>
      match post with
      | [] => Ok (rev pre, msgs)
      | x :: nt =>
          if cmtest x T_SI then
            match pre with
            | [] => si_loop f [x] nt ((line x, col x) :: msgs)
            | y :: pre' =>
                match si_require y with
                | None => Abort
                | Some require =>
                    let '(short, z) := eat_si (require - 1) nt in
                    match short with
                    | O => si_loop f pre' z msgs
                    | S _ => si_loop f (set_dat (N_BROKEN_ERASURE short) y :: pre') z msgs
                    end
                end
            end
          else si_loop f (x :: pre) nt msgs
      end
  end.

(* erasure.c:20-100 *)
Definition handle_si (toks : list node) : outcome (list node * list (N * N)) :=
  si_loop (S (length toks)) [] toks [].

(* erasure.c:132-134: does y match the token nt after the SA?  C compares the
   type tags; for two cmavo also the selma'o. *)
Definition type_tag (d : ndata) : nat :=
  match d with
  | N_MARKER _ => 0 | N_GARBAGE _ => 1 | N_CMAVO _ _ _ => 2 | N_ZOI _ _ _ => 3
  | N_ZO _ => 4 | N_LOhU _ => 5 | N_ZEI _ _ _ => 6 | N_BU _ => 7
  | N_BRIVLA _ _ => 8 | N_CMENE _ => 9 | N_BROKEN_ERASURE _ => 11
  end.
Definition sa_match (y nt : node) : bool :=
  Nat.eqb (type_tag (dat y)) (type_tag (dat nt)) &&
  match dat y, dat nt with
  | N_CMAVO s _ _, N_CMAVO s' _ _ => tok_eqb s s'
  | N_CMAVO _ _ _, _ => false
  | _, _ => true
  end.

(* erasure.c:131-145: go back over [pre] (reversed) to the match and delete from
   there up to and including x; what remains of [pre] is returned *)
Fixpoint sa_back (nt : node) (pre : list node) : list node :=
  match pre with
  | [] => []
  | y :: pre' => if sa_match y nt then pre' else sa_back nt pre'
  end.

(* erasure.c:108-147 (handle_sa) *)
Fixpoint sa_loop (pre post : list node) : list node :=
  match post with
  | [] => rev pre
  | x :: post' =>
      match post' with
      | [] => rev (x :: pre)                      (* line 126: nt == toks *)
      | nt :: _ =>
          if cmtest x T_SA then sa_loop (sa_back nt pre) post'
          else sa_loop (x :: pre) post'
      end
  end.
Definition handle_sa (toks : list node) : list node := sa_loop [] toks.

(* erasure.c:183-187 *)
Definition su_boundary (y : node) : bool :=
  cmtest y T_NIhO || cmtest y T_LU || cmtest y T_TUhE || cmtest y T_TO.

(* erasure.c:182-198 *)
Fixpoint su_back (pre : list node) : list node :=
  match pre with
  | [] => []
  | y :: pre' => if su_boundary y then pre' else su_back pre'
  end.

(* erasure.c:153-202 (handle_su) *)
Fixpoint su_loop (pre post : list node) : list node :=
  match post with
  | [] => rev pre
  | x :: post' =>
      if cmtest x T_SU then
        match post' with
        | nt :: ntt =>
            if cmtest nt T_SU then su_loop [] ntt     (* lines 167-178 *)
            else su_loop (su_back pre) post'
        | [] => su_loop (su_back pre) post'
        end
      else su_loop (x :: pre) post'
  end.
Definition handle_su (toks : list node) : list node := su_loop [] toks.

(* erasure.c:208-214 *)
Definition do_erasures (toks : list node) : outcome (list node * list (N * N)) :=
  do r <- handle_si toks;
  let '(t1, msgs) := r in
  Ok (handle_su (handle_sa t1), msgs).

(* ---------------------------------------------------------------- *)
(* lex2.c *)

(* lex2.c:345-376: text stored for the word quoted by zo; None = assert(0) *)
Definition zo_text (y : node) : option string :=
  match dat y with
  | N_CMAVO _ code _ => Some (cmavo_word code)
  | N_GARBAGE w => Some w
  | N_BRIVLA w _ => Some w
  | N_CMENE w => Some w
  | N_ZOI _ _ text => Some text
  | _ => None
  end.

(* lex2.c:333-334: note that the selma'o is taken from the table here *)
Definition is_zo (x : node) : bool :=
  match dat x with
  | N_CMAVO _ code _ =>
      match cmavo_selmao code with Some s => tok_eqb s T_ZO | None => false end
  | _ => false
  end.

(* lex2.c:324-386 (handle_zo) *)
Fixpoint handle_zo (post : list node) : outcome (list node) :=
  match post with
  | [] => Ok []
  | x :: post' =>
      if is_zo x then
        match post' with
        | [] => Exit 1                                       (* line 337-340 *)
        | y :: post'' =>
            match zo_text y with
            | None => Abort
            | Some t => omap (cons (set_dat (N_ZO t) x)) (handle_zo post'')
            end
        end
      else omap (cons x) (handle_zo post')
  end.

(* lex2.c:193 *)
Definition DEFECTIVE_ERASURE : string := "<Defective erasure>".

(* lex2.c:202-250: the length pass of build_string_from_nodes for one node;
   None = assert(0) at line 239.  The list is start..end. *)
Definition node_len (y : node) : option nat :=
  match dat y with
  | N_GARBAGE w => Some (String.length w)
  | N_CMAVO _ code _ => Some (String.length (cmavo_word code))
  | N_BRIVLA w _ => Some (String.length w)
  | N_CMENE w => Some (String.length w)
  | N_ZOI _ _ text => Some (6 + String.length text)
  | N_ZO text => Some (3 + String.length text)
  | N_ZEI _ _ z => Some (String.length z)
  | N_BROKEN_ERASURE _ => Some (String.length DEFECTIVE_ERASURE)
  | N_MARKER _ | N_LOhU _ | N_BU _ => None
  end.
Fixpoint nodes_len (l : list node) : option nat :=
  match l with
  | [] => Some 0
  | [y] => node_len y
  | y :: l' =>
      match node_len y, nodes_len l' with
      | Some a, Some b => Some (a + 1 + b)
      | _, _ => None
      end
  end.

(* lex2.c:254-303: the text pass for one node *)
Definition node_str (y : node) : option string :=
  match dat y with
  | N_GARBAGE w => Some w
  | N_CMAVO _ code _ => Some (cmavo_word code)
  | N_BRIVLA w _ => Some w
  | N_CMENE w => Some w
  | N_ZOI _ _ text => Some ("zoi+""" ++ text ++ """")
  | N_ZO text => Some ("zo+" ++ text)
  | N_ZEI _ _ z => Some z
  | N_BROKEN_ERASURE _ => Some DEFECTIVE_ERASURE
  | N_MARKER _ | N_LOhU _ | N_BU _ => None
  end.

(* lex2.c:195-307 (build_string_from_nodes) for a non-empty range.
   Appends to a buffer; the buffer has 1 + nodes_len bytes (line 252) and
   writing beyond it is UB. *)
Fixpoint cat_nodes (l : list node) : option string :=
  match l with
  | [] => Some ""
  | [y] => node_str y
  | y :: l' =>
      match node_str y, cat_nodes l' with
      | Some a, Some b => Some (a ++ " " ++ b)
      | _, _ => None
      end
  end.
Definition build_string_from_nodes (l : list node) : outcome string :=
  match nodes_len l with
  | None => Abort
  | Some len =>
      match cat_nodes l with
      | None => Abort
      | Some s => if Nat.leb (String.length s + 1) (1 + len) then Ok s else UB UB_bounds
      end
  end.

(* lex2.c:314-318 *)
Definition build_string_from_node (y : node) : outcome string :=
  build_string_from_nodes [y].

(* lex2.c:405-418: split the nodes after LOhU at the first LEhU *)
Fixpoint split_lehu (y : list node) : option (list node * list node) :=
  match y with
  | [] => None
  | n :: y' =>
      if cmtest n T_LEhU then Some ([], y')
      else match split_lehu y' with
           | None => None
           | Some (q, r) => Some (n :: q, r)
           end
  end.

(* lex2.c:393-429 (handle_lohu).  When the quoted range is empty, start is the
   LEhU node and end is its predecessor, the LOhU node itself, so
   build_string_from_nodes runs forward through the rest of the list to the list
   head, whose type tag is N_MARKER (lex2.c:38, static storage is zero), where
   assert(0) fires (unless an earlier node in the rest asserts first). *)
Fixpoint lohu_loop (fuel : nat) (post : list node) : outcome (list node) :=
  match fuel with
  | O => NoFuel
  | S f =>
      match post with
      | [] => Ok []
      | x :: post' =>
          if cmtest x T_LOhU then
            match split_lehu post' with
            | None => Exit 1                                 (* lines 407-410 *)
            | Some ([], _) => Abort
            | Some (q, r) =>
                do s <- build_string_from_nodes q;
                omap (cons (set_dat (N_LOhU s) x)) (lohu_loop f r)
            end
          else omap (cons x) (lohu_loop f post')
      end
  end.
Definition handle_lohu (toks : list node) : outcome (list node) :=
  lohu_loop (S (length toks)) toks.

(* lex2.c:435-440 *)
Definition is_zei (x : node) : bool := cmtest x T_ZEI.

(* lex2.c:469-481: collect the operands after the first zei.  The argument is
   the list after a zei; the result is the operands and the rest, None when the
   list ends right after a zei (lines 473-478). *)
Fixpoint zei_operands (z : list node) : option (list node * list node) :=
  match z with
  | [] => None
  | y :: z' =>
      match z' with
      | z1 :: z'' =>
          if is_zei z1 then
            match zei_operands z'' with
            | None => None
            | Some (ops, r) => Some (y :: ops, r)
            end
          else Some ([y], z')
      | [] => Some ([y], z')
      end
  end.

(* lex2.c:489-495: strings of all operands *)
Fixpoint strings_of (l : list node) : outcome (list string) :=
  match l with
  | [] => Ok []
  | y :: l' => do s <- build_string_from_node y; do ss <- strings_of l'; Ok (s :: ss)
  end.

(* lex2.c:497-510: join with a separator; the buffers have room for
   total + (count-1)*seplen + 1 bytes *)
Fixpoint join (sep : string) (l : list string) : string :=
  match l with
  | [] => ""
  | [s] => s
  | s :: l' => s ++ sep ++ join sep l'
  end.
Definition total_length (l : list string) : nat :=
  fold_right (fun s n => String.length s + n) 0 l.
Definition join_buf (sep : string) (cap : nat) (l : list string) : outcome string :=
  let s := join sep l in
  if Nat.leb (String.length s + 1) cap then Ok s else UB UB_bounds.

(* lex2.c:442-530 (handle_zei).  [first] as in C; the boolean in the result is
   whether had_bad_tokens was set (lines 464, 475). *)
Fixpoint zei_loop (fuel : nat) (first : bool) (pre post : list node) (bad : bool)
  : outcome (list node * bool) :=
  match fuel with
  | O => NoFuel
  | S f =>
      match post with
      | [] => Ok (rev pre, bad)
      | x :: nt =>
          if is_zei x then
            if first then zei_loop f false (x :: pre) nt true
            else
              match zei_operands nt with
              | None => zei_loop f false (x :: pre) nt true
              | Some (ops, rgt) =>
                  match pre with
                  | [] => UB UB_other        (* x->prev is the list head *)
                  | l :: lft =>
                      let children := l :: ops in
                      let count := length children in
                      do comps <- strings_of children;
                      do plus <- join_buf "+" (total_length comps + (count - 1) + 1) comps;
                      do withzei <- join_buf " zei " (total_length comps + (count - 1) * 5 + 1) comps;
                      zei_loop f false (set_dat (N_ZEI children plus withzei) x :: lft) rgt bad
                  end
              end
          else zei_loop f false (x :: pre) nt bad
      end
  end.
Definition handle_zei (toks : list node) : outcome (list node * bool) :=
  zei_loop (S (length toks)) true [] toks false.

(* lex2.c:538-568 (handle_bahe).  A BAhE followed by a word other than FAhO is
   unlinked and becomes that word's bahe (lines 554-557), and the loop goes on at
   that word.  [att] is the BAhE just unlinked, not yet stored into the current
   node's bahe field. *)
Fixpoint bahe_loop (att : option node) (post : list node) : list node :=
  match post with
  | [] => []
  | x0 :: post' =>
      let x := match att with Some a => set_bahe (Some a) x0 | None => x0 end in
      if cmtest x T_BAhE then
        match post' with
        | [] => [x]
        | y :: _ =>
            if cmtest y T_FAhO then x :: bahe_loop None post'
            else bahe_loop (Some x) post'
        end
      else x :: bahe_loop None post'
  end.
Definition handle_bahe (toks : list node) : list node := bahe_loop None toks.

(* lex2.c:589-653: text of the BU node made from its predecessor y; None =
   assert(0).  The new_array sizes of lines 610-643 are len+3, len+4, len+11. *)
Definition bu_word (y : node) : outcome string :=
  let buf (cap : nat) (s : string) : outcome string :=
      if Nat.leb (String.length s + 1) cap then Ok s else UB UB_bounds in
  match dat y with
  | N_CMAVO _ code _ => Ok (cmavo_word code)
  | N_GARBAGE w => Ok w
  | N_BRIVLA w _ => Ok w
  | N_CMENE w => Ok w
  | N_ZOI _ _ text => Ok text
  | N_ZO t => buf (String.length t + 3) ("zo" ++ t)
  | N_ZEI _ _ _ => build_string_from_node y
  | N_BU w => buf (String.length w + 4) (w ++ ".bu")
  | N_LOhU t => buf (String.length t + 11) ("lo'u-" ++ t ++ "-le'u")
  | N_BROKEN_ERASURE _ => Ok DEFECTIVE_ERASURE
  | N_MARKER _ => Abort
  end.

(* lex2.c:574-662 (handle_bu).  With no predecessor, y is the list head, whose
   type tag is N_MARKER: assert(0). *)
Fixpoint bu_loop (pre post : list node) : outcome (list node) :=
  match post with
  | [] => Ok (rev pre)
  | x :: nt =>
      if cmtest x T_BU then
        match pre with
        | [] => Abort
        | y :: pre' =>
            do w <- bu_word y;
            bu_loop (set_dat (N_BU w) x :: pre') nt
        end
      else bu_loop (x :: pre) nt
  end.
Definition handle_bu (toks : list node) : outcome (list node) := bu_loop [] toks.

(* lex2.c:670-687 *)
Definition is_indicator_cmavo (x : node) : bool :=
  match dat x with
  | N_CMAVO s _ _ =>
      tok_eqb s T_UI || tok_eqb s T_CAI || tok_eqb s T_Y || tok_eqb s T_DAhO ||
      tok_eqb s T_FUhE || tok_eqb s T_FUhO
  | _ => false
  end.

(* lex2.c:693-702 *)
Definition is_fuhe (x : node) : bool := cmtest x T_FUhE.

(* lex2.c:763-776: which CAI cmavo; None = abort() *)
Definition cai_of (z : node) : option caicode :=
  match dat z with
  | N_CMAVO _ code _ =>
      let t := cmavo_word code in
      if String.eqb t "cai" then Some CC_CAI
      else if String.eqb t "sai" then Some CC_SAI
      else if String.eqb t "ru'e" then Some CC_RUhE
      else if String.eqb t "cu'i" then Some CC_CUhI
      else if String.eqb t "pei" then Some CC_PEI
      else None
  | _ => None
  end.

(* lex2.c:788-807: effect of a following NAI on the CAI code *)
Definition cai_nai (k : caicode) : caicode :=
  match k with
  | CC_CAI => CC_CAINAI
  | CC_SAI => CC_SAINAI
  | CC_RUhE => CC_RUhENAI
  | CC_CUhI => CC_CUhI
  | CC_PEI => CC_PEINAI
  | _ => k
  end.

(* lex2.c:725-820 (pair_off_indicator_suffixes): fuel counts loop iterations *)
Fixpoint pair_off (fuel : nat) (post : list node) : outcome (list node) :=
  match fuel with
  | O => NoFuel
  | S f =>
      match post with
      | [] => Ok []
      | x :: y =>
          if is_indicator_cmavo x then
            (* lines 737-752 *)
            let '(x1, z) :=
              match y with
              | y0 :: y' => if cmtest y0 T_NAI then (set_neg true x, y') else (x, y)
              | [] => (x, y)
              end in
            (* lines 757-815 *)
            match z with
            | z0 :: w =>
                if cmtest z0 T_CAI then
                  match cai_of z0 with
                  | None => Abort
                  | Some k =>
                      match w with
                      | w0 :: v =>
                          if cmtest w0 T_NAI
                          then omap (cons (set_cai (Some (cai_nai k)) x1)) (pair_off f v)
                          else omap (cons (set_cai (Some k) x1)) (pair_off f w)
                      | [] => omap (cons (set_cai (Some k) x1)) (pair_off f w)
                      end
                  end
                else omap (cons x1) (pair_off f z)
            | [] => omap (cons x1) (pair_off f z)
            end
          else omap (cons x) (pair_off f y)
      end
  end.
Definition pair_off_indicator_suffixes (toks : list node) : outcome (list node) :=
  pair_off (S (length toks)) toks.

(* lex2.c:708-714 (advance_indicator): the maximal indicator run and the rest *)
Fixpoint span_indicators (l : list node) : list node * list node :=
  match l with
  | [] => ([], [])
  | x :: l' =>
      if is_indicator_cmavo x then let '(a, b) := span_indicators l' in (x :: a, b)
      else ([], l)
  end.

(* lex2.c:834 *)
Inductive indstate : Set := XX_BEGIN | XX_AFTER_INITIAL_FUHE | XX_AFTER_INITIAL_INDICATOR | XX_OTHER.

(* lex2.c:829-896 (handle_indicators), main loop; [pre] reversed *)
Fixpoint ind_loop (fuel : nat) (st : indstate) (pre post : list node) : outcome (list node) :=
  match fuel with
  | O => NoFuel
  | S f =>
      match post with
      | [] => Ok (rev pre)
      | x :: nt =>
          match st with
          | XX_BEGIN =>
              let st' := if is_fuhe x then XX_AFTER_INITIAL_FUHE
                         else if is_indicator_cmavo x then XX_AFTER_INITIAL_INDICATOR
                         else XX_OTHER in
              ind_loop f st' (x :: pre) nt
          | XX_AFTER_INITIAL_FUHE =>
              let st' := if is_indicator_cmavo x then XX_AFTER_INITIAL_INDICATOR else XX_OTHER in
              ind_loop f st' (x :: pre) nt
          | XX_AFTER_INITIAL_INDICATOR =>
              let st' := if is_indicator_cmavo x then XX_AFTER_INITIAL_INDICATOR else XX_OTHER in
              ind_loop f st' (x :: pre) nt
          | XX_OTHER =>
              if is_indicator_cmavo x then
                match pre with
                | [] => UB UB_other            (* target would be the list head *)
                | target :: pre' =>
                    let '(inds, rest) := span_indicators post in
                    ind_loop f XX_OTHER (set_ui inds target :: pre') rest
                end
              else ind_loop f XX_OTHER (x :: pre) nt
          end
      end
  end.
Definition handle_indicators (toks : list node) : outcome (list node) :=
  do t <- pair_off_indicator_suffixes toks;
  ind_loop (S (length t)) XX_BEGIN [] t.

(* lex2.c:907-938 (preprocess_tokens) up to handle_indicators; categorize_tokens
   is in CategModel.  The second component is the si warnings, the third whether
   had_bad_tokens was set by handle_zei. *)
Definition group_tokens (toks : list node) : outcome (list node * list (N * N) * bool) :=
  do t1 <- handle_zo toks;
  do t2 <- handle_lohu t1;
  do r3 <- do_erasures t2;
  let '(t3, msgs) := r3 in
  do r4 <- handle_zei t3;
  let '(t4, bad) := r4 in
  do t5 <- handle_bu (handle_bahe t4);
  do t6 <- handle_indicators t5;
  Ok (t6, msgs, bad).
