(* The walk of terms.c: children found by kind, and the vectors of terms. *)
From Coq Require Import String List NArith ZArith Bool Arith Lia.
From Verif Require Import Base TokData CmavoData TokModel StreamModel TreeModel TreeOutModel GrammarData GramModel GramSpec GramProofs PassProofs2
  ConvSpec ConvProofs2 ErasureProofs TermsModel TermsSpec WalkModel WalkSpec.
From Verif Require OutModel PassModel.

Import ListNotations.
Open Scope string_scope.
Open Scope list_scope.

Lemma obind_inv {A B} (e : outcome A) (k : A -> outcome B) r : obind e k = Ok r -> exists a, e = Ok a /\ k a = Ok r.
Proof. destruct e; cbn [obind]; intro H; try discriminate H. eauto. Qed.
Ltac oinv H := let a := fresh "a" in let E := fresh "E" in apply obind_inv in H; destruct H as (a & E & H); cbn beta in H.

(* ---------- children by kind ---------- *)

Fixpoint positions (K : string) (i : nat) (ch : list tree) : list nat :=
  match ch with
  | [] => []
  | c :: ch => if is_nt K c then i :: positions K (S i) ch else positions K (S i) ch
  end.
Lemma find_positions K ch : forall i n, find_nth_child i ch (S n) K = nth_error (positions K i ch) n.
Proof.
  induction ch as [|c ch IH]; intros i n; cbn [find_nth_child positions]; [destruct n; reflexivity |].
  destruct (is_nt K c); [| apply IH]. destruct n as [|n]; [reflexivity |].
  replace (S (S n) - 1) with (S n) by lia. rewrite IH. reflexivity.
Qed.
Lemma positions_in K ch : forall i j, In j (positions K i ch) <-> i <= j /\ exists cc, nth_error ch (j - i) = Some (NT K cc).
Proof.
  induction ch as [|c ch IH]; intros i j; cbn [positions].
  { split; [intros [] | intros (_ & cc & E); destruct (j - i); discriminate E]. }
  assert (R : In j (positions K (S i) ch) <-> i < j /\ exists cc, nth_error (c :: ch) (j - i) = Some (NT K cc)).
  { rewrite IH. split; intros (L & cc & E); (split; [lia |]); exists cc; [replace (j - i) with (S (j - S i)) by lia; exact E |].
    replace (j - i) with (S (j - S i)) in E by lia. exact E. }
  destruct (is_nt K c) eqn:X.
  - destruct c as [x|k cc]; [discriminate X |]. apply String.eqb_eq in X. subst k. cbn [In]. rewrite R. split.
    + intros [<-|(L & Q)]; [split; [lia |]; exists cc; rewrite Nat.sub_diag; reflexivity | split; [lia | exact Q]].
    + intros (L & Q). destruct (Nat.eq_dec i j) as [->|N]; [left; reflexivity | right; split; [lia | exact Q]].
  - rewrite R. split; [intros (L & Q); split; [lia | exact Q] |]. intros (L & cc & Q). split; [| eauto].
    destruct (Nat.eq_dec i j) as [->|N]; [| lia]. rewrite Nat.sub_diag in Q. injection Q as ->. cbn [is_nt] in X.
    rewrite String.eqb_refl in X. discriminate X.
Qed.
Lemma positions_at K ch j : In j (positions K 0 ch) <-> exists cc, nth_error ch j = Some (NT K cc).
Proof. rewrite positions_in, Nat.sub_0_r. split; [intros (_ & Q); exact Q | intro Q; split; [lia | exact Q]]. Qed.

Fixpoint count (K : string) (ss : list sym) : nat :=
  match ss with [] => 0 | s :: ss => (if is_SN K s then 1 else 0) + count K ss end.
Lemma positions_count K ss ch : K <> "AUGMENTED" -> fitsx ss ch -> forall i, List.length (positions K i ch) = count K ss.
Proof.
  intro A. induction 1 as [|ty ss ch cs F IH|t x ss cs W F IH|t ss cs F IH|t x ss cs W F IH]; intro i; cbn [positions count is_SN is_nt].
  - reflexivity.
  - destruct (String.eqb ty K); cbn [List.length]; rewrite IH; reflexivity.
  - rewrite (wordlike_not t x K W A). apply IH.
  - apply IH.
  - rewrite (wordlike_not t x K W A). apply IH.
Qed.

(* one of a kind *)
Definition only (K : string) (ch : list tree) (i : nat) (cc : list tree) : Prop :=
  forall j cc', nth_error ch j = Some (NT K cc') <-> j = i /\ cc' = cc.
Lemma find_one K ss (p : list nat) k ch : K <> "AUGMENTED" -> fitsx ss ch -> count K ss = 1 ->
  exists i cc, find_child (p, NT k ch) 1 K = Ok (Some (p ++ [i], NT K cc)) /\ only K ch i cc.
Proof.
  intros A F C. pose proof (positions_count K ss ch A F 0) as L. rewrite C in L.
  unfold find_child. cbn [fst snd]. rewrite find_positions.
  destruct (positions K 0 ch) as [|i [|j l]] eqn:P; try discriminate L. cbn [nth_error].
  assert (I : In i (positions K 0 ch)) by (rewrite P; left; reflexivity). apply positions_at in I. destruct I as (cc & N).
  rewrite N. exists i, cc. split; [reflexivity |]. intros j cc'. split; [| intros [-> ->]; exact N]. intro N'.
  assert (J : In j (positions K 0 ch)) by (apply positions_at; eauto). rewrite P in J. destruct J as [<-|[]].
  split; [reflexivity | congruence].
Qed.
Lemma find_no K ss (p : list nat) k ch : K <> "AUGMENTED" -> fitsx ss ch -> count K ss = 0 ->
  find_child (p, NT k ch) 1 K = Ok None /\ forall j cc', nth_error ch j <> Some (NT K cc').
Proof.
  intros A F C. pose proof (positions_count K ss ch A F 0) as L. rewrite C in L.
  unfold find_child. cbn [fst snd]. rewrite find_positions.
  destruct (positions K 0 ch) as [|i l] eqn:P; try discriminate L. cbn [nth_error]. split; [reflexivity |].
  intros j cc' N'. assert (J : In j (positions K 0 ch)) by (apply positions_at; eauto). rewrite P in J. destruct J.
Qed.
Lemma find_two K ss (p : list nat) k ch : K <> "AUGMENTED" -> fitsx ss ch -> count K ss = 2 ->
  exists i cc j dd, find_child (p, NT k ch) 1 K = Ok (Some (p ++ [i], NT K cc)) /\
    find_child (p, NT k ch) 2 K = Ok (Some (p ++ [j], NT K dd)) /\
    nth_error ch i = Some (NT K cc) /\ nth_error ch j = Some (NT K dd) /\
    forall n ee, nth_error ch n = Some (NT K ee) -> n = i /\ ee = cc \/ n = j /\ ee = dd.
Proof.
  intros A F C. pose proof (positions_count K ss ch A F 0) as L. rewrite C in L.
  unfold find_child. cbn [fst snd]. rewrite !find_positions.
  destruct (positions K 0 ch) as [|i [|j [|l l']]] eqn:P; try discriminate L. cbn [nth_error].
  assert (I : In i (positions K 0 ch)) by (rewrite P; left; reflexivity). apply positions_at in I. destruct I as (cc & N).
  assert (J : In j (positions K 0 ch)) by (rewrite P; right; left; reflexivity). apply positions_at in J. destruct J as (dd & N').
  rewrite N, N'. exists i, cc, j, dd. repeat split; try assumption. intros n ee E.
  assert (M : In n (positions K 0 ch)) by (apply positions_at; eauto). rewrite P in M.
  destruct M as [<-|[<-|[]]]; [left | right]; (split; [reflexivity | congruence]).
Qed.

Lemma alt k ch (P : list sym -> bool) : parsed (NT k ch) -> k <> "AUGMENTED" -> forallb P (alternatives k) = true ->
  exists ss, fitsx ss ch /\ P ss = true.
Proof.
  intros PA A C. apply parsed_NT in PA. destruct PA as [E|[(ss & IS & F) _]]; [contradiction |].
  exists ss. split; [exact F |]. rewrite forallb_forall in C. apply C. exact IS.
Qed.

(* ---------- places in the tree ---------- *)

Definition sits (T : tree) (x : here) : Prop := subtree T (fst x) = Some (snd x).
Lemma sits_child T (p : list nat) k ch i c : sits T (p, NT k ch) -> nth_error ch i = Some c -> sits T (p ++ [i], c).
Proof. unfold sits. cbn [fst snd]. intros N E. rewrite (subtree_app p [i] T _ N). cbn [subtree]. rewrite E. destruct c; reflexivity. Qed.
Lemma sits_parsed T (p : list nat) k ch : parsed T -> is_nt "CHUNKS" T = true -> sits T (p, NT k ch) -> k <> "AUGMENTED" -> parsed (NT k ch).
Proof.
  intros P C E A. destruct T as [x|top tch]; [discriminate C |]. apply String.eqb_eq in C. subst top.
  assert (S1 : sound (NT k ch)) by (eapply at_sound; [exact P | discriminate | exact E]).
  destruct S1 as [[_ PT]|[O|[tk W]]]; [exact PT | apply ornament_NT in O; destruct O; contradiction |].
  inversion W. congruence.
Qed.

(* ---------- words ---------- *)

Lemma word_bahe bs x us : forallb (fun b => cmtest b T_BAhE) bs = true -> cmtest x T_BAhE = false ->
  forall i, unemphasised i (map Leaf bs ++ Leaf x :: us) = Some ([i + List.length bs], x) /\
            skip_bahe i (map Leaf bs ++ Leaf x :: us) = Ok ([i + List.length bs], Leaf x).
Proof.
  induction bs as [|b bs IH]; cbn [map app unemphasised skip_bahe forallb is_cm List.length]; intros B X i.
  - rewrite X. rewrite Nat.add_0_r. split; reflexivity.
  - apply andb_true_iff in B. destruct B as [B1 B2]. rewrite B1. replace (i + S (List.length bs)) with (S i + List.length bs) by lia.
    apply IH; assumption.
Qed.
Lemma not_bahe t x : is_word t x -> t <> T_BAhE -> cmtest x T_BAhE = false.
Proof.
  intros W N. pose proof (word_value _ _ W) as V. unfold value_of in V. unfold cmtest.
  destruct (dat x); try reflexivity. match goal with |- tok_eqb ?t _ = _ => destruct (tok_eqb t T_BAhE) eqn:E; [| reflexivity]; apply tok_eqb_eq in E; subst t end.
  exfalso. cbn in V. injection V. congruence.
Qed.
(* a word found by stripping *)
Lemma strip_word t c : wordlike t c -> t <> T_BAhE -> exists r x, word c = Some (r, x) /\ is_word t x /\
  maybe_strip_attitudinal c = Ok (r, Leaf x) /\ (forall s, cmtest x s = true -> strip_attitudinal c = Ok (r, Leaf x)).
Proof.
  intros W N. destruct W as [x X|bs x us B X U].
  - exists [], x. split; [reflexivity |]. split; [exact X |]. split; [reflexivity |]. intros s C. unfold cmtest in C. cbn [strip_attitudinal].
    destruct (dat x); try discriminate C. reflexivity.
  - destruct (word_bahe bs x us B (not_bahe _ _ X N) 0) as [E1 E2]. exists [0 + List.length bs], x.
    assert (E3 : strip_attitudinal (NT "AUGMENTED" (map Leaf bs ++ Leaf x :: us)) = Ok ([0 + List.length bs], Leaf x)).
    { cbn [strip_attitudinal]. rewrite String.eqb_refl. destruct (map Leaf bs ++ Leaf x :: us) eqn:Q; [destruct bs; discriminate Q |].
      exact E2. }
    split; [cbn [word]; rewrite String.eqb_refl; exact E1 |]. split; [exact X |]. split; [| intros; exact E3].
    unfold maybe_strip_attitudinal. cbn [is_nt]. rewrite String.eqb_refl. exact E3.
Qed.


(* ---------- the vectors of terms ---------- *)

Definition each (p : path) :=
  fix each (i : nat) (l : list tree) : list (path * tree) :=
    match l with [] => [] | c :: l => terms_in (p ++ [i]) c ++ each (S i) l end.
Lemma terms_seq p k ch : among k ["TERMS"; "TAIL_TERMS"; "LINKARGS"; "LINKS"] = true -> terms_in p (NT k ch) = each p 0 ch.
Proof.
  intro A. cbn [terms_in]. destruct (String.eqb_spec k "TERM") as [->|_]; [discriminate A |]. rewrite A. reflexivity.
Qed.
Lemma sorts_app a b : sorts (a ++ b) = sorts a ++ sorts b.
Proof. unfold sorts. rewrite flat_map_app. reflexivity. Qed.

(* the words of selma'o FA *)
Lemma fa_table : forallb (fun e => match e with (_, w, s) => if tok_eqb s T_FA then String.eqb w "fi'a" || has w (map fst fa_words) else true end) cmavo_cells = true.
Proof. vm_compute. reflexivity. Qed.

Lemma fa_text x : is_word T_FA x -> cmtest x T_FA = true /\ (text_of x = "fi'a" \/ exists n, In (text_of x, n) fa_words).
Proof.
  intro W. split; [apply word_cm; [exact W | discriminate..] |]. pose proof (word_value _ _ W) as V.
  unfold is_word in W. unfold value_of in V. unfold text_of. destruct (dat x) eqn:D; try discriminate V; try exact (False_ind _ W).
  destruct W as [S _]. match type of V with (if ?b then _ else _) = _ => destruct b; [discriminate V |] end. injection V as ->.
  unfold cmavo_selmao, cmavo_word, cmavo_cell in *.
    destruct (find _ cmavo_cells) as [[[c w] s]|] eqn:F; [| discriminate S]. injection S as ->.
    apply find_some in F. destruct F as [F _]. pose proof fa_table as T. rewrite forallb_forall in T. specialize (T _ F).
    change (String.eqb w "fi'a" || has w (map fst fa_words) = true) in T. apply orb_true_iff in T.
    destruct T as [T|T]; [left; apply String.eqb_eq; exact T | right].
    apply has_In in T. apply in_map_iff in T. destruct T as ([w' n] & E & I). exists n. cbn in E. subst w'. exact I.
Qed.
Lemma fa_conv (p q : list nat) c : wordlike T_FA c -> exists r x n, word c = Some (r, x) /\ recover_fa_conv (p, c) = Ok n /\
  marked q (text_of x) = [if Nat.eqb n 0 then TRM_FAhI q else TRM_FA n q] /\ (n = 0 \/ 1 <= n <= 5 \/ n = 101).
Proof.
  intro W. destruct (strip_word _ _ W) as (r & x & W1 & X & _ & S); [intro H; discriminate H |].
  destruct (fa_text x X) as [C T]. exists r, x. specialize (S _ C).
  assert (M : cmavo_for T_FA (p, c) = Ok (text_of x)).
  { unfold cmavo_for. cbn [snd]. rewrite S. cbn [obind]. unfold cmtest in C. unfold text_of. destruct (dat x); try discriminate C.
    rewrite C. reflexivity. }
  unfold recover_fa_conv. rewrite M. cbn [obind]. destruct T as [T|(n & I)].
  - rewrite T. exists 0. split; [exact W1 |]. split; [reflexivity |]. split; [reflexivity | left; reflexivity].
  - cbn [In fa_words] in I. destruct I as [I|[I|[I|[I|[I|[I|[]]]]]]]; pose proof (f_equal fst I) as E1; cbn [fst] in E1; rewrite <- E1; clear E1 I;
      (eexists; split; [exact W1 |]); (split; [reflexivity |]); (split; [reflexivity |]); unfold FAI_OFFSET; lia.
Qed.


Lemma app1 {A} (a b : list A) n : nth_error (a ++ b) (List.length a + n) = nth_error b n.
Proof. rewrite nth_error_app2 by lia. f_equal. lia. Qed.

Definition opt {A} (o : option A) : list A := match o with Some x => [x] | None => [] end.
Lemma term_one : forallb (fun ss => match ss with [SN k] => has k ["TERM_PLAIN_SUMTI"; "TERM_TAGGED_SUMTI"; "TERM_PLACED_SUMTI"; "TERM_FLOATING_TENSE"; "TERMSET"; "TAGGED_TERMSET"; "TERM_FLOATING_NEGATE"; "TERM_OTHER"] | _ => false end) (alternatives "TERM") = true.
Proof. vm_compute. reflexivity. Qed.
Lemma placed_first : forallb (fun ss => match ss with ST T_FA :: _ => true | _ => false end) (alternatives "TERM_PLACED_SUMTI") = true.
Proof. vm_compute. reflexivity. Qed.
Lemma fits1 k ch : fitsx [SN k] ch -> exists cc, ch = [NT k cc].
Proof. intro F. inversion F; subst. match goal with H : fitsx [] _ |- _ => inversion H; subst end. eauto. Qed.
Lemma parsed_kid ch c k : parsed (NT k ch) -> k <> "AUGMENTED" -> In c ch -> parsed c.
Proof. apply parsed_children. Qed.

Lemma term_sort (p : list nat) ch : parsed (NT "TERM" ch) -> exists o, term_entry (p, NT "TERM" ch) = Ok o /\ sort (p, NT "TERM" ch) = opt o /\
  Forall term_ok (opt o).
Proof.
  intro P. destruct (alt _ _ _ P ltac:(intro H; discriminate H) term_one) as (ss & F & S).
  destruct ss as [|[k|t|t] [|s' l]]; try discriminate S. destruct (fits1 _ _ F) as (cc & ->). clear F.
  assert (P1 : parsed (NT k cc)) by (eapply parsed_children; [exact P | intro H; discriminate H | left; reflexivity]).
  apply has_In in S. unfold term_entry, child_ref, sort. cbn [fst snd nth_error obind type_of].
  cbn [In] in S. destruct S as [<-|[<-|[<-|[<-|[<-|[<-|[<-|[<-|[]]]]]]]]];
    try (eexists; split; [reflexivity | split; [reflexivity | repeat constructor]]).
  destruct (alt _ _ _ P1 ltac:(intro H; discriminate H) placed_first) as (ss & F & S).
  destruct ss as [|[k|t|t] l]; try discriminate S. destruct t; try discriminate S.
  inversion F as [|ty ss ch cs F'|t x ss' cs W F'|t ss' cs F'|t x ss' cs W F']; subst. destruct (fa_conv ((p ++ [0]) ++ [0]) p x W) as (r & n & m & E1 & E2 & E3 & E4).
  exists (Some (if Nat.eqb m 0 then TRM_FAhI p else TRM_FA m p)).
  split; [change (obind (recover_fa_conv ((p ++ [0]) ++ [0], x)) (fun pos => Ok (Some (if Nat.eqb pos 0 then TRM_FAhI p else TRM_FA pos p))) =
                  Ok (Some (if Nat.eqb m 0 then TRM_FAhI p else TRM_FA m p))); etransitivity; [exact (f_equal (fun o => obind o _) E2) | reflexivity] |].
  split; [change (match word x with Some (_, n0) => marked p (text_of n0) | None => [] end = [if Nat.eqb m 0 then TRM_FAhI p else TRM_FA m p]);
          rewrite E1; exact E3 |].
  cbn [opt]. constructor; [| constructor]. destruct E4 as [->|E4]; [exact I |].
  destruct (Nat.eqb m 0); [exact I | exact E4].
Qed.

(* one term of a sequence *)
Lemma terms1_shape : forallb (fun ss => match ss with [SN k] => String.eqb k "TERMS_2" | SN _ :: ST _ :: _ => true | _ => false end) (alternatives "TERMS_1") = true.
Proof. vm_compute. reflexivity. Qed.
Lemma terms2_shape : forallb (fun ss => match ss with [SN k] => String.eqb k "TERM" | SN _ :: ST _ :: _ => true | _ => false end) (alternatives "TERMS_2") = true.
Proof. vm_compute. reflexivity. Qed.
Lemma several k t ss ch : fitsx (SN k :: ST t :: ss) ch -> 2 <= List.length ch.
Proof. intro F. inversion F as [|ty ss0 ch0 cs F'| | |]; subst. inversion F'; subst. cbn [List.length]. lia. Qed.
Ltac naug := let NA := fresh "NA" in intro NA; discriminate NA.

Lemma tv_step_spec (p : list nat) cc v : parsed (NT "TERMS_1" cc) -> exists o, sorts (terms_in p (NT "TERMS_1" cc)) = opt o /\ Forall term_ok (opt o) /\
  tv_step (p, NT "TERMS_1" cc) v = match o with None => Ok v | Some e => do _ <- room v; Ok (e :: v) end.
Proof.
  intro P. destruct (alt _ _ _ P ltac:(naug) terms1_shape) as (ss & F & S).
  destruct ss as [|[k|t|t] [|[k'|t'|t'] l]]; try discriminate S.
  - apply String.eqb_eq in S. subst k. destruct (fits1 _ _ F) as (c2 & ->). clear F.
    assert (P2 : parsed (NT "TERMS_2" c2)) by (eapply parsed_children; [exact P | naug | left; reflexivity]).
    destruct (alt _ _ _ P2 ltac:(naug) terms2_shape) as (ss & F & S).
    destruct ss as [|[k|t|t] [|[k'|t'|t'] l]]; try discriminate S.
    + apply String.eqb_eq in S. subst k. destruct (fits1 _ _ F) as (c3 & ->). clear F.
      assert (P3 : parsed (NT "TERM" c3)) by (eapply parsed_children; [exact P2 | naug | left; reflexivity]).
      destruct (term_sort ((p ++ [0]) ++ [0]) c3 P3) as (o & E1 & E2 & E3). exists o.
      split; [| split; [exact E3 |]].
      * cbn. unfold sorts. cbn [flat_map]. rewrite app_nil_r. exact E2.
      * unfold tv_step, only_term, type_check, nch, child_ref. cbn [fst snd is_nt nth_error obind List.length Nat.ltb Nat.leb].
        rewrite String.eqb_refl. cbn [obind]. rewrite String.eqb_refl. cbn [obind]. rewrite String.eqb_refl. cbn [obind].
        rewrite E1. cbn [obind]. reflexivity.
    + pose proof (several _ _ _ _ F) as L. exists None. split; [| split; [constructor |]].
      * cbn. destruct (Nat.eqb_spec (List.length c2) 1) as [E|_]; [lia | reflexivity].
      * unfold tv_step, only_term, type_check, nch, child_ref. cbn [fst snd is_nt nth_error obind List.length Nat.ltb Nat.leb].
        rewrite String.eqb_refl. cbn [obind]. rewrite String.eqb_refl. cbn [obind].
        destruct (List.length c2) as [|[|n]]; [lia | lia |]. reflexivity.
  - pose proof (several _ _ _ _ F) as L. exists None. split; [| split; [constructor |]].
    + cbn. destruct (Nat.eqb_spec (List.length cc) 1) as [E|_]; [lia | reflexivity].
    + unfold tv_step, only_term, type_check, nch, child_ref. cbn [fst snd is_nt].
      rewrite String.eqb_refl. cbn [obind]. destruct (List.length cc) as [|[|n]]; [lia | lia |]. reflexivity.
Qed.

Lemma terms_shape : forallb (fun ss => match ss with [SN k] => String.eqb k "TERMS_1" | [SN k; SN k'] => String.eqb k "TERMS" && String.eqb k' "TERMS_1" | _ => false end) (alternatives "TERMS") = true.
Proof. vm_compute. reflexivity. Qed.
Lemma fits2 k k' ch : fitsx [SN k; SN k'] ch -> exists cc dd, ch = [NT k cc; NT k' dd].
Proof. intro F. inversion F as [|ty ss0 ch0 cs F'| | |]; subst. destruct (fits1 _ _ F') as (dd & ->). eauto. Qed.

Definition small (l : list term) : bool := Nat.leb (List.length l) 20.
Lemma tv_loop_spec xx : forall (p : list nat) v, is_nt "TERMS" xx = true -> parsed xx -> small v = true ->
  let s := sorts (terms_in p xx) in
  tv_loop p xx v = (if small (s ++ v) then Ok (s ++ v) else UB UB_bounds) /\ Forall term_ok s.
Proof.
  induction xx as [x|k ch IH] using tree_ind2; intros p v K P SV; [discriminate K |]. apply String.eqb_eq in K. subst k.
  destruct (alt _ _ _ P ltac:(naug) terms_shape) as (ss & F & SH).
  assert (ROOM : forall e w, small w = true -> (do _ <- room w; Ok (e :: w)) = if small (e :: w) then Ok (e :: w) else UB UB_bounds).
  { intros e w Sw. unfold small in *. apply Nat.leb_le in Sw. unfold room, MAX_TERMS_IN_VECTOR. cbn [List.length].
    destruct (Nat.ltb_spec (List.length w) 20); destruct (Nat.leb_spec (S (List.length w)) 20); try lia; reflexivity. }
  destruct ss as [|[k|t|t] [|[k'|t'|t'] [|s' l]]]; try discriminate SH.
  - apply String.eqb_eq in SH. subst k. destruct (fits1 _ _ F) as (cc & ->). cbn zeta. rewrite terms_seq by reflexivity. cbn [each tv_loop].
    rewrite app_nil_r. assert (P1 : parsed (NT "TERMS_1" cc)) by (eapply parsed_children; [exact P | naug | left; reflexivity]).
    destruct (tv_step_spec (p ++ [0]) cc v P1) as (o & E1 & E2 & E3). rewrite E1, E3. split; [| exact E2].
    destruct o as [e|]; cbn [opt app]; [apply ROOM; exact SV | rewrite SV; reflexivity].
  - apply andb_true_iff in SH. destruct SH as [S1 S2]. apply String.eqb_eq in S1, S2. subst k k'.
    destruct (fits2 _ _ _ F) as (cc & dd & ->). cbn zeta. rewrite terms_seq by reflexivity. cbn [each]. rewrite app_nil_r, sorts_app.
    change (tv_loop p (NT "TERMS" [NT "TERMS" cc; NT "TERMS_1" dd]) v) with
      (do v <- tv_step (p ++ [1], NT "TERMS_1" dd) v; tv_loop (p ++ [0]) (NT "TERMS" cc) v).
    assert (P1 : parsed (NT "TERMS" cc)) by (eapply parsed_children; [exact P | naug | left; reflexivity]).
    assert (P2 : parsed (NT "TERMS_1" dd)) by (eapply parsed_children; [exact P | naug | right; left; reflexivity]).
    destruct (tv_step_spec (p ++ [1]) dd v P2) as (o & E1 & E2 & E3). rewrite E1, E3.
    rewrite Forall_cons_iff in IH. destruct IH as [IH _]. specialize (IH (p ++ [0])). set (s := sorts (terms_in (p ++ [0]) (NT "TERMS" cc))) in *.
    assert (OKs : Forall term_ok s) by (apply (IH []); [reflexivity | exact P1 | reflexivity]).
    split; [| apply Forall_app; split; assumption].
    destruct o as [e|]; cbn [opt]; [| change (obind (Ok v) (tv_loop (p ++ [0]) (NT "TERMS" cc))) with (tv_loop (p ++ [0]) (NT "TERMS" cc) v);
      rewrite app_nil_r; apply IH; [reflexivity | exact P1 | exact SV]].
    rewrite ROOM by exact SV. destruct (small (e :: v)) eqn:SM.
    + change (obind (Ok (e :: v)) (tv_loop (p ++ [0]) (NT "TERMS" cc))) with (tv_loop (p ++ [0]) (NT "TERMS" cc) (e :: v)).
      rewrite <- app_assoc. cbn [app]. apply IH; [reflexivity | exact P1 | exact SM].
    + replace (small ((s ++ [e]) ++ v)) with false; [reflexivity |].
      symmetry. unfold small in *. rewrite <- app_assoc, app_length. cbn [app]. apply Nat.leb_gt. apply Nat.leb_gt in SM. lia.
Qed.
Lemma tv_build_spec x : is_nt "TERMS" (snd x) = true -> parsed (snd x) ->
  let s := sorts (terms_in (fst x) (snd x)) in
  tv_build x = (if small s then Ok s else UB UB_bounds) /\ Forall term_ok s.
Proof.
  intros K P. destruct x as [p t]. cbn [fst snd] in *. pose proof (tv_loop_spec t p [] K P eq_refl) as H.
  cbn zeta in *. rewrite app_nil_r in H. unfold tv_build, type_check. cbn [fst snd]. rewrite K. exact H.
Qed.

Lemma catenate_inv a b c : tv_catenate a b = Ok c -> c = a ++ b.
Proof. unfold tv_catenate. destruct (Nat.leb _ _); [| discriminate]. intro H. injection H as <-. reflexivity. Qed.

(* ---------- linked terms ---------- *)

Lemma each_app p ch : forall i ch', each p i (ch ++ ch') = each p i ch ++ each p (i + List.length ch) ch'.
Proof.
  induction ch as [|c ch IH]; intros i ch'; cbn [app each List.length]; [rewrite Nat.add_0_r; reflexivity |].
  rewrite IH, <- app_assoc. replace (i + S (List.length ch)) with (S i + List.length ch) by lia. reflexivity.
Qed.
Lemma terms_word p t c : wordlike t c -> terms_in p c = [].
Proof. intros [x X|bs x us B X U]; reflexivity. Qed.
(* the terms and links of a list of children are what they are *)
Definition bare (k : string) : bool := negb (has k ["TERM"; "TERMS"; "TAIL_TERMS"; "LINKARGS"; "LINKS"; "TERMS_1"; "TERMS_2"]).
Definition bare_sym (s : sym) : bool := match s with SN k => bare k | _ => true end.
Lemma terms_bare p k ch : bare k = true -> terms_in p (NT k ch) = [].
Proof.
  unfold bare. intro B. apply negb_true_iff in B. unfold has in B. cbn [existsb] in B. cbn [terms_in among existsb].
  destruct (String.eqb k "TERM"); [discriminate B |]. destruct (String.eqb k "TERMS"); [discriminate B |].
  destruct (String.eqb k "TAIL_TERMS"); [discriminate B |]. destruct (String.eqb k "LINKARGS"); [discriminate B |].
  destruct (String.eqb k "LINKS"); [discriminate B |]. destruct (String.eqb k "TERMS_1"); [discriminate B |].
  destruct (String.eqb k "TERMS_2"); [discriminate B |]. reflexivity.
Qed.
Lemma each_bare p ss ch : fitsx ss ch -> forallb bare_sym ss = true -> forall i, each p i ch = [].
Proof.
  induction 1 as [|ty ss ch cs F IH|t x ss cs W F IH|t ss cs F IH|t x ss cs W F IH]; cbn [forallb]; intros B i; try apply andb_true_iff in B;
    cbn [each]; [reflexivity | destruct B as [B1 B2]..].
  - rewrite (terms_bare _ _ _ B1), IH by exact B2. reflexivity.
  - rewrite (terms_word _ _ _ W), IH by exact B2. reflexivity.
  - apply IH. exact B2.
  - rewrite (terms_word _ _ _ W), IH by exact B2. reflexivity.
Qed.
Lemma height_child k ch c : In c ch -> height c < height (NT k ch).
Proof.
  intro I. cbn [height]. apply Nat.lt_succ_r. assert (H : In (height c) (map height ch)) by (apply in_map; exact I).
  pose proof (proj1 (list_max_le (map height ch) (list_max (map height ch))) (Nat.le_refl _)) as F. rewrite Forall_forall in F.
  apply F. exact H.
Qed.
Lemma height_nth k ch i c : nth_error ch i = Some c -> height c < height (NT k ch).
Proof. intro N. apply height_child. eapply nth_error_In. exact N. Qed.

Definition link_shape (ss : list sym) : bool :=
  match count "TERM" ss with
  | 1 => chk (fun pre post => forallb bare_sym pre && match post with
                              | SN k :: post => String.eqb k "LINKS" && forallb bare_sym post
                              | _ => forallb bare_sym post end) "TERM" [] ss
  | _ => false
  end.
Lemma linkargs_shape : forallb link_shape (alternatives "LINKARGS") = true.
Proof. vm_compute. reflexivity. Qed.
Lemma links_shape : forallb link_shape (alternatives "LINKS") = true.
Proof. vm_compute. reflexivity. Qed.
Lemma bare_count K ss : bare K = false -> forallb bare_sym ss = true -> count K ss = 0.
Proof.
  intro B. induction ss as [|s ss IH]; cbn [forallb count]; [reflexivity |]. intro F. apply andb_true_iff in F. destruct F as [F1 F2].
  rewrite (IH F2). destruct s as [k|t|t]; cbn [is_SN]; [| reflexivity..]. destruct (String.eqb_spec k K) as [->|_]; [| reflexivity].
  cbn [bare_sym] in F1. congruence.
Qed.
Lemma count_app K a b : count K (a ++ b) = count K a + count K b.
Proof. induction a as [|s a IH]; cbn [app count]; [reflexivity |]. rewrite IH. lia. Qed.

Lemma sortS (v s : list term) : small v = true -> small (v ++ s) = false -> s <> [].
Proof. intros A B ->. rewrite app_nil_r in B. congruence. Qed.

Lemma link_loop_spec fuel : forall (p : list nat) k ch v, k = "LINKARGS" \/ k = "LINKS" -> parsed (NT k ch) -> height (NT k ch) < fuel ->
  small v = true ->
  let s := v ++ sorts (terms_in p (NT k ch)) in
  link_loop fuel (p, NT k ch) v = (if small s then Ok s else UB UB_bounds) /\ Forall term_ok (sorts (terms_in p (NT k ch))).
Proof.
  induction fuel as [|f IH]; intros p k ch v K P H SV; [lia |].
  assert (A : k <> "AUGMENTED") by (destruct K as [-> | ->]; naug).
  assert (SHk : forallb link_shape (alternatives k) = true) by (destruct K as [-> | ->]; [apply linkargs_shape | apply links_shape]).
  assert (SE : terms_in p (NT k ch) = each p 0 ch) by (destruct K as [-> | ->]; apply terms_seq; reflexivity).
  cbn zeta. rewrite SE. clear SE.
  destruct (alt _ _ _ P A SHk) as (ss & F & SH). unfold link_shape in SH. destruct (count "TERM" ss) as [|[|n]] eqn:C; try discriminate SH.
  destruct (find_one "TERM" ss p k ch ltac:(naug) F C) as (i & cc & FO & O).
  assert (N : nth_error ch i = Some (NT "TERM" cc)) by (apply O; auto).
  destruct (fitsx_split "TERM" _ _ _ F ltac:(naug) i N) as (ss1 & ss2 & ch1 & ch2 & -> & E & L & F1 & F2).
  apply chk_sound in SH. cbn [app] in SH. apply andb_true_iff in SH. destruct SH as [B1 SH].
  assert (P1 : parsed (NT "TERM" cc)) by (eapply parsed_children; [exact P | exact A | eapply nth_error_In; exact N]).
  destruct (term_sort (p ++ [i]) cc P1) as (o & T1 & T2 & T3).
  assert (EA : each p 0 ch = terms_in (p ++ [i]) (NT "TERM" cc) ++ each p (S i) ch2).
  { rewrite E, each_app, (each_bare _ _ _ F1 B1). cbn [each app]. rewrite L. reflexivity. }
  assert (TI : terms_in (p ++ [i]) (NT "TERM" cc) = [(p ++ [i], NT "TERM" cc)]) by reflexivity.
  rewrite EA, TI, sorts_app. change (sorts [(p ++ [i], NT "TERM" cc)]) with (sort (p ++ [i], NT "TERM" cc) ++ []). rewrite T2, app_nil_r.
  change (link_loop (S f) (p, NT k ch) v) with
    (do tm <- find_child (p, NT k ch) 1 "TERM"; do lk <- find_child (p, NT k ch) 1 "LINKS"; do tm <- asserted tm; do e <- term_entry tm;
     do v <- match e with None => Ok v | Some e => do _ <- room v; Ok (v ++ [e]) end;
     match lk with None => Ok v | Some la => link_loop f la v end).
  rewrite FO. cbn [obind asserted].
  assert (STEP : match o with None => Ok v | Some e => do _ <- room v; Ok (v ++ [e]) end =
                 if small (v ++ opt o) then Ok (v ++ opt o) else UB UB_bounds).
  { destruct o as [e|]; cbn [opt]; [| rewrite app_nil_r, SV; reflexivity]. unfold room, small, MAX_TERMS_IN_VECTOR in *.
    rewrite app_length. cbn [List.length]. apply Nat.leb_le in SV.
    destruct (Nat.ltb_spec (List.length v) 20); destruct (Nat.leb_spec (List.length v + 1) 20); try lia; reflexivity. }
  assert (BARE : forallb bare_sym ss2 = true \/ exists ss3, ss2 = SN "LINKS" :: ss3 /\ forallb bare_sym ss3 = true).
  { destruct ss2 as [|[k2|t2|t2] ss3]; [left; exact SH | | left; exact SH | left; exact SH]. right. apply andb_true_iff in SH. destruct SH as [E2 SH].
    apply String.eqb_eq in E2. subst k2. exists ss3. split; [reflexivity | exact SH]. }
  clear SH. destruct BARE as [B2|(ss3 & -> & B3)].
  - assert (CL : count "LINKS" (ss1 ++ SN "TERM" :: ss2) = 0).
    { rewrite count_app. cbn [count is_SN]. rewrite (bare_count "LINKS" ss1), (bare_count "LINKS" ss2) by (reflexivity || assumption). reflexivity. }
    destruct (find_no "LINKS" _ p k ch ltac:(naug) F CL) as [FN _]. rewrite FN. cbn [obind]. rewrite T1. cbn [obind]. rewrite STEP.
    rewrite (each_bare _ _ _ F2 B2). cbn [sorts flat_map]. rewrite app_nil_r. split; [| exact T3].
    destruct (small (v ++ opt o)); reflexivity.
  - assert (CL : count "LINKS" (ss1 ++ SN "TERM" :: SN "LINKS" :: ss3) = 1).
    { rewrite count_app. cbn [count is_SN]. rewrite (bare_count "LINKS" ss1), (bare_count "LINKS" ss3) by (reflexivity || assumption). reflexivity. }
    destruct (find_one "LINKS" _ p k ch ltac:(naug) F CL) as (j & dd & FL & OL). rewrite FL. cbn [obind]. rewrite T1. cbn [obind]. rewrite STEP.
    inversion F2 as [|ty2 ss4 ch4 cs4 F4| | |]; subst ty2 ss4 ch2.
    assert (J : nth_error ch (S i) = Some (NT "LINKS" ch4)).
    { rewrite E. replace (S i) with (List.length ch1 + 1) by lia. rewrite app1. reflexivity. }
    apply OL in J. destruct J as [J1 ->]. subst j.
    assert (NJ : nth_error ch (S i) = Some (NT "LINKS" dd)) by (apply OL; auto).
    cbn [each]. rewrite (each_bare _ _ _ F4 B3), app_nil_r.
    assert (P2 : parsed (NT "LINKS" dd)) by (eapply parsed_children; [exact P | exact A | eapply nth_error_In; exact NJ]).
    pose proof (height_nth k ch _ _ NJ) as HJ.
    assert (OK2 : Forall term_ok (sorts (terms_in (p ++ [S i]) (NT "LINKS" dd)))) by (apply (IH (p ++ [S i]) "LINKS" dd []); [right; reflexivity | exact P2 | lia | reflexivity]).
    split; [| apply Forall_app; split; assumption]. rewrite app_assoc. destruct (small (v ++ opt o)) eqn:SM; cbn [obind].
    + apply (IH (p ++ [S i]) "LINKS" dd (v ++ opt o)); [right; reflexivity | exact P2 | lia | exact SM].
    + match goal with |- _ = if ?b then _ else _ => replace b with false; [reflexivity |] end.
      symmetry. unfold small in *. rewrite app_length. apply Nat.leb_gt. apply Nat.leb_gt in SM. lia.
Qed.

Lemma tu1_shape : forallb (fun ss => match ss with [SN k] => String.eqb k "TANRU_UNIT_2" | [SN k; SN k'] => String.eqb k "TANRU_UNIT_2" && String.eqb k' "LINKARGS" | _ => false end) (alternatives "TANRU_UNIT_1") = true.
Proof. vm_compute. reflexivity. Qed.
Lemma tu1_inv ch : parsed (NT "TANRU_UNIT_1" ch) -> exists cc, ch = [NT "TANRU_UNIT_2" cc] \/ exists dd, ch = [NT "TANRU_UNIT_2" cc; NT "LINKARGS" dd].
Proof.
  intro P. destruct (alt _ _ _ P ltac:(naug) tu1_shape) as (ss & F & SH).
  destruct ss as [|[k|t|t] [|[k'|t'|t'] [|s' l]]]; try discriminate SH.
  - apply String.eqb_eq in SH. subst k. destruct (fits1 _ _ F) as (cc & ->). eauto.
  - apply andb_true_iff in SH. destruct SH as [S1 S2]. apply String.eqb_eq in S1, S2. subst k k'.
    destruct (fits2 _ _ _ F) as (cc & dd & ->). eauto.
Qed.
Lemma links_of_spec (p : list nat) cc dd : parsed (NT "TANRU_UNIT_1" [NT "TANRU_UNIT_2" cc; NT "LINKARGS" dd]) ->
  let s := sorts (terms_in (p ++ [1]) (NT "LINKARGS" dd)) in
  links_of (p, NT "TANRU_UNIT_1" [NT "TANRU_UNIT_2" cc; NT "LINKARGS" dd]) = (if small s then Ok (Some s) else UB UB_bounds) /\ Forall term_ok s.
Proof.
  intro P. assert (P1 : parsed (NT "LINKARGS" dd)) by (eapply parsed_children; [exact P | naug | right; left; reflexivity]).
  destruct (link_loop_spec (S (height (NT "LINKARGS" dd))) (p ++ [1]) "LINKARGS" dd [] (or_introl eq_refl) P1 ltac:(lia) eq_refl) as [E1 E2].
  cbn zeta in *. cbn [app] in E1. split; [| exact E2].
  change (links_of (p, NT "TANRU_UNIT_1" [NT "TANRU_UNIT_2" cc; NT "LINKARGS" dd])) with
    (obind (link_loop (S (height (NT "LINKARGS" dd))) (p ++ [1], NT "LINKARGS" dd) []) (fun v => Ok (Some v))).
  rewrite E1. destruct (small _); reflexivity.
Qed.
