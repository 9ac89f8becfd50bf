(* Where the single look-ahead markers of categ.c stand, said on the words and the
   brackets of constructs (CategSpec.v). *)
From Coq Require Import List NArith Bool.
From Verif Require Import Base TokData TokModel CategSpec.
Import ListNotations.
Open Scope list_scope.

(* the words and brackets of a sequence *)
Definition core (l : list item) : list item := filter counts l.

(* a bracketed stretch at the start of [l], and what is left *)
Inductive stretch (s e : tok) : list item -> list item -> Prop :=
| stretch_intro a r : ~ In (M e) a -> stretch s e (M s :: a ++ M e :: r) r.
(* a jek or joik *)
Definition link (l r : list item) : Prop :=
  stretch T_PRIVATE_START_JEK T_PRIVATE_END_JEK l r \/ stretch T_PRIVATE_START_JOIK T_PRIVATE_END_JOIK l r.
(* tenses, linked by jek or joik *)
Inductive tags : list item -> list item -> Prop :=
| tags_one l r : stretch T_PRIVATE_START_TENSE T_PRIVATE_END_TENSE l r -> tags l r
| tags_more l r1 r2 r : stretch T_PRIVATE_START_TENSE T_PRIVATE_END_TENSE l r1 -> link r1 r2 -> tags r2 r -> tags l r.
(* [w] follows, perhaps after tenses *)
Definition leads (w : tok) (l : list item) : Prop :=
  (exists r, l = W w :: r) \/ exists r, tags l (W w :: r).

(* i, perhaps a jek or joik, perhaps tenses, bo *)
Definition i_bo (l : list item) : Prop :=
  exists r, l = W T_I :: r /\ (leads T_BO r \/ exists r', link r r' /\ leads T_BO r').
(* i and a jek or joik, not with bo *)
Definition i_link (l : list item) : Prop :=
  (exists r, l = W T_I :: M T_PRIVATE_START_JEK :: r \/ l = W T_I :: M T_PRIVATE_START_JOIK :: r) /\ ~ i_bo l.
(* a jek or joik that is neither part of i je nor between tenses, perhaps tenses, [w] *)
Definition link_then (s e w : tok) (prev : option item) (l : list item) : Prop :=
  prev <> Some (W T_I) /\ prev <> Some (M T_PRIVATE_END_TENSE) /\ exists r, stretch s e l r /\ leads w r.
(* an ek or gihek with its nai, perhaps tenses, [w] *)
Definition conn_then (s c w : tok) (l : list item) : Prop :=
  exists a r, l = M s :: a ++ W c :: r /\ ~ In (W c) a /\
    (leads w r \/ exists r', r = W T_NAI :: r' /\ leads w r').
(* a number that starts here, and [w] directly after it *)
Definition numeral (i : item) : bool :=
  match i with W (T_PA | T_BU | T_BY | T_LAU | T_TEI | T_FOI) => true | Bu => true | _ => false end.
Definition number_then (w : tok) (prev : option item) (l : list item) : Prop :=
  (forall i, prev = Some i -> numeral i = false) /\
  exists a r, l = a ++ W w :: r /\ a <> [] /\ forallb numeral a = true.
Definition pair (a b : tok) (l : list item) : Prop := exists r, l = W a :: W b :: r.

(* what stands behind each marker: the word or bracket before it, and the sequence
   after it *)
Definition stands (t : tok) (prev : option item) (l : list item) : Prop :=
  match t with
  | T_PRIVATE_I_BO => i_bo l
  | T_PRIVATE_I_JEKJOIK => i_link l
  | T_PRIVATE_JEK_BO => link_then T_PRIVATE_START_JEK T_PRIVATE_END_JEK T_BO prev l
  | T_PRIVATE_JEK_KE => link_then T_PRIVATE_START_JEK T_PRIVATE_END_JEK T_KE prev l
  | T_PRIVATE_JOIK_BO => link_then T_PRIVATE_START_JOIK T_PRIVATE_END_JOIK T_BO prev l
  | T_PRIVATE_JOIK_KE => link_then T_PRIVATE_START_JOIK T_PRIVATE_END_JOIK T_KE prev l
  | T_PRIVATE_EK_BO => conn_then T_PRIVATE_START_EK T_A T_BO l
  | T_PRIVATE_EK_KE => conn_then T_PRIVATE_START_EK T_A T_KE l
  | T_PRIVATE_GIHEK_BO => conn_then T_PRIVATE_START_GIHEK T_GIhA T_BO l
  | T_PRIVATE_GIHEK_KE => conn_then T_PRIVATE_START_GIHEK T_GIhA T_KE l
  | T_PRIVATE_NUMBER_MAI => number_then T_MAI prev l
  | T_PRIVATE_NUMBER_ROI => number_then T_ROI prev l
  | T_PRIVATE_NUMBER_MOI => number_then T_MOI prev l
  | T_PRIVATE_NAhE_BO => pair T_NAhE T_BO l
  | T_PRIVATE_NA_KU => pair T_NA T_KU l
  | _ => False
  end.

(* [l'] is [l] with the marker [t] put exactly where it should stand; [p] is what is
   before [l], nearest first *)
Inductive put (t : tok) : list item -> list item -> list item -> Prop :=
| put_nil p : put t p [] []
| put_here p i l l' : stands t (hd_error p) (i :: l) -> put t (i :: p) l l' -> put t p (i :: l) (M t :: i :: l')
| put_not p i l l' : ~ stands t (hd_error p) (i :: l) -> put t (i :: p) l l' -> put t p (i :: l) (i :: l').

Definition single_markers : list tok :=
  [T_PRIVATE_I_BO; T_PRIVATE_I_JEKJOIK; T_PRIVATE_JEK_BO; T_PRIVATE_JEK_KE; T_PRIVATE_JOIK_BO; T_PRIVATE_JOIK_KE;
   T_PRIVATE_EK_BO; T_PRIVATE_EK_KE; T_PRIVATE_GIHEK_BO; T_PRIVATE_GIHEK_KE;
   T_PRIVATE_NUMBER_MAI; T_PRIVATE_NUMBER_ROI; T_PRIVATE_NUMBER_MOI; T_PRIVATE_NAhE_BO; T_PRIVATE_NA_KU].
(* the words and brackets together with one kind of single marker *)
Definition core_and (t : tok) (l : list item) : list item :=
  filter (fun i => counts i || item_eqb i (M t)) l.
(* every single marker stands exactly where it should *)
Definition singles_exact (l : list item) : Prop :=
  (forall t, In (M t) l -> bracket t = true \/ In t single_markers) /\
  forall t, In t single_markers -> put t [] (core l) (core_and t l).
