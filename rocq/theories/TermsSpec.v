(* What it means to give sumti their places.  A selbri presents numbered places,
   without any limit on the numbers; [what] says what each stands for and [full]
   whether a sumti has been put there.  [hidden] are the places that jai has
   moved out of the way, the latest first; fai names the latest. *)
From Coq Require Import List NArith Bool Arith.
From Verif Require Import TreeModel ConvSpec TermsModel.
Import ListNotations.
Open Scope list_scope.

Record frame (A : Type) := Frame { what : nat -> A; full : nat -> bool; hidden : list A }.
Arguments Frame {A}. Arguments what {A}. Arguments full {A}. Arguments hidden {A}.

Definition fill (f : nat -> bool) (p q : nat) : bool := Nat.eqb q p || f q.

(* sumti without any mark: each gets the least place at or after the counter that
   is not full; the counter then continues after it.  A sumti marked with fa, fe,
   fi, fo, fu (1 to 5) puts the counter after its place. *)
Inductive unmarked : (nat -> bool) -> nat -> list term -> list (path * nat) -> (nat -> bool) -> Prop :=
| um_nil f b : unmarked f b [] [] f
| um_pos f b n ts p out f' :
    b <= p -> f p = false -> (forall q, b <= q < p -> f q = true) ->
    unmarked (fill f p) (S p) ts out f' ->
    unmarked f b (TRM_POS n :: ts) ((n, p) :: out) f'
| um_fa f b k n ts out f' :
    1 <= k <= 5 -> unmarked f (S k) ts out f' -> unmarked f b (TRM_FA k n :: ts) out f'
| um_fai f b n ts out f' :
    unmarked f b ts out f' -> unmarked f b (TRM_FA 101 n :: ts) out f'
| um_fahi f b n ts out f' : unmarked f b ts out f' -> unmarked f b (TRM_FAhI n :: ts) out f'
| um_tag f b n ts out f' : unmarked f b ts out f' -> unmarked f b (TRM_TAG n :: ts) out f'.

(* one sumti given a place: the sumti, the number of the place (None for fai),
   and what the place stands for *)
Definition given (A : Type) : Type := path * option nat * A.

Section SPEC.
  Variable A : Type.
  (* what the new first place of a jai stands for *)
  Variable new : A -> option (path * path) -> A.
  (* whether the new first place counts as full when the old one was *)
  Variable keep : bool.
  (* which jai are considered *)
  Variable side : frame A -> option (path * path) -> Prop.

  (* marked sumti get the place named, full or not *)
  Definition named (f : frame A) (ts : list term) : list (given A) :=
    flat_map (fun t => match t with
      | TRM_FA k n =>
          if Nat.leb k 5 then [(n, Some k, what f k)]
          else match hidden f with h :: _ => [(n, None, h)] | [] => [] end
      | _ => [] end) ts.
  Definition names (k : nat) (ts : list term) : bool :=
    existsb (fun t => match t with TRM_FA j _ => Nat.eqb j k && Nat.leb j 5 | _ => false end) ts.

  (* a group of sumti, counting from b: the marked ones go first, wherever in the
     group they are *)
  Inductive placed (f : frame A) (b : nat) (ts : list term) : list (given A) -> frame A -> Prop :=
  | placed_intro out full' :
      unmarked (fun p => full f p || names p ts) b ts out full' ->
      placed f b ts (named f ts ++ map (fun e => (fst e, Some (snd e), what f (snd e))) out)
        (Frame (what f) full' (hidden f)).

  Definition jai (f : frame A) (t : option (path * path)) : frame A :=
    Frame (fun p => if Nat.eqb p 1 then new (what f 1) t else what f p)
          (fun p => if Nat.eqb p 1 then keep && full f 1 else full f p)
          (what f 1 :: hidden f).

  Inductive link : link_conv -> frame A -> list (given A) -> frame A -> Prop :=
  | link_se c f : 2 <= c <= 5 ->
      link (LC_SE c) f [] (Frame (fun p => what f (transpose 1 c p)) (fun p => full f (transpose 1 c p)) (hidden f))
  | link_jai f : side f None -> link LC_JAI f [] (jai f None)
  | link_tag t u f : side f (Some (t, u)) -> link (LC_TAG t u) f [] (jai f (Some (t, u)))
  | link_links v f out f' : placed f 2 v out f' -> link (LC_LINKS v) f out f'.

  (* the chain, innermost first *)
  Inductive links : list link_conv -> frame A -> list (given A) -> frame A -> Prop :=
  | links_nil f : links [] f [] f
  | links_cons e es f out g outs h :
      link e f out g -> links es g outs h -> links (e :: es) f (out ++ outs) h.

  Variable core : nat -> A.

  (* the whole bridi: links, se and jai from the inside outwards, then the sumti
     before the selbri from place 1, then those after it from place 2 *)
  Inductive bridi (pre post : list term) (lc : list link_conv) : list (given A) -> Prop :=
  | bridi_intro o1 f1 o2 f2 o3 f3 :
      links (rev lc) (Frame core (fun _ => false) []) o1 f1 ->
      placed f1 1 pre o2 f2 ->
      placed f2 2 post o3 f3 ->
      bridi pre post lc (o1 ++ o2 ++ o3).
End SPEC.

(* The meaning: places of the brivla, the place added by jai with a tense or
   modal, the place added by a bare jai; a new place is empty. *)
Inductive slot : Type := Core (n : nat) | Modal (tag tu2 : path) | Raised.
Definition jai_slot (_ : slot) (t : option (path * path)) : slot :=
  match t with Some (t, u) => Modal t u | None => Raised end.
Definition meaning := bridi slot jai_slot false (fun _ _ => True) Core.
(* the same for the texts in which each jai has a tag and no sumti has been given
   the first place before *)
Definition regular := bridi slot jai_slot false (fun f t => full f 1 = false /\ t <> None) Core.

(* What is shown instead: a bare jai has its first place shown as the one it took
   away, and a jai leaves the first place full if it was. *)
Definition jai_shown (p : place_type * nat) (t : option (path * path)) : place_type * nat :=
  match t with Some (t, u) => (PT_TAG t u, snd p) | None => (PT_ORD, snd p) end.
Definition observed := bridi (place_type * nat) jai_shown true (fun _ _ => True) (fun p => (PT_ORD, p)).

(* the marks are those of selma'o FA and the conversions those of SE *)
Definition term_ok (t : term) : Prop :=
  match t with TRM_FA k _ => 1 <= k <= 5 \/ k = 101 | _ => True end.
Definition link_ok (e : link_conv) : Prop :=
  match e with LC_SE c => 2 <= c <= 5 | LC_LINKS v => Forall term_ok v | _ => True end.

Definition is_jai (e : link_conv) : bool := match e with LC_JAI | LC_TAG _ _ => true | _ => false end.
Definition unmarked_count (ts : list term) : nat :=
  List.length (filter (fun t => match t with TRM_POS _ => true | _ => false end) ts).
Definition link_count (e : link_conv) : nat := match e with LC_LINKS v => unmarked_count v | _ => 0 end.

Definition total_links (es : list link_conv) : nat := fold_right (fun e n => link_count e + n) 0 es.

(* every number fits the tables of twenty entries *)
Definition fits {A} (out : list (given A)) : Prop :=
  forall n p a, In (n, Some p, a) out -> p < 20.

(* what a place of the tables stands for *)
Definition view (p : place_type * nat) : slot :=
  match fst p with PT_ORD => Core (snd p) | PT_TAG t u => Modal t u | PT_JAI => Raised end.
(* what a term was given, as shown *)
Definition shown_place (x : fixup) : path * slot := (fst x, view (pl_type (snd x), pl_pos (snd x))).
(* exactly one of two outcomes, according to a condition *)
Definition if_fits (c yes no : Prop) : Prop := (c -> yes) /\ (~ c -> no).
