(* Lemmas about parse trees. *)
From Coq Require Import String List NArith Bool Arith Lia.
From Verif Require Import Base TokData TokModel StreamModel TreeModel TreeOutModel ErasureProofs GrammarData GramModel GramSpec.
Import ListNotations.
Open Scope string_scope.
Open Scope list_scope.

Lemma tree_ind2 (P : tree -> Prop) :
  (forall x, P (Leaf x)) -> (forall ty ch, Forall P ch -> P (NT ty ch)) -> forall t, P t.
Proof.
  intros L N. fix IH 1. intros [x|ty ch]; [apply L |]. apply N.
  induction ch as [|c ch H]; constructor; [apply IH | exact H].
Qed.

Fixpoint node_size (x : node) : nat :=
  match x with
  | Node _ _ _ b _ _ u =>
      S (match b with Some z => node_size z | None => 0 end + list_sum (map node_size u))
  end.

Lemma all_Forall {A} (P : A -> Prop) (l : list A) :
  (fix all (l : list A) : Prop := match l with [] => True | c :: l => P c /\ all l end) l <-> Forall P l.
Proof.
  induction l as [|c l IH]; [split; constructor |]. rewrite IH, Forall_cons_iff. reflexivity.
Qed.

Lemma derived_NT ty ch : derived (NT ty ch) <->
  (exists ss, In ss (alternatives ty) /\ fits ss ch) /\ Forall derived ch.
Proof. cbn [derived]. rewrite all_Forall. reflexivity. Qed.
Lemma parsed_NT ty ch : parsed (NT ty ch) <->
  ty = "AUGMENTED" \/ (exists ss, In ss (alternatives ty) /\ fitsx ss ch) /\ Forall parsed ch.
Proof. cbn [parsed]. rewrite all_Forall. reflexivity. Qed.
Lemma ornament_NT ty ch : ornament (NT ty ch) <-> ty = "AUGMENTED" /\ Forall ornament ch.
Proof. cbn [ornament]. rewrite all_Forall. reflexivity. Qed.

Lemma decorated_inv d l c b g k u : decorated (Node d l c b g k u) ->
  (forall z, b = Some z -> cmtest z T_BAhE = true /\ decorated z) /\
  Forall (fun y => attachable y = true /\ decorated y) u.
Proof.
  intros [H1 H2]. split.
  - intros z ->. exact H1.
  - revert H2. clear. induction u as [|y u IH]; constructor.
    + split; [apply H2 | apply H2].
    + apply IH. apply H2.
Qed.

Lemma attach_dat x y : dat x = dat y -> attachable x = attachable y.
Proof. unfold attachable. intros ->. reflexivity. Qed.
Lemma word_dat t x y : dat x = dat y -> is_word t x -> is_word t y.
Proof.
  unfold is_word, value_of. intros <-. destruct (dat x); intro H; try exact H; try (lazymatch type of H with _ /\ _ => destruct H as [SM H]; split; [exact SM |] end);
    repeat match type of H with context [if ?c then _ else _] => destruct c end; try discriminate H; injection H as <-; reflexivity.
Qed.

Lemma bahe_attach x : cmtest x T_BAhE = true -> attachable x = true.
Proof.
  unfold cmtest, attachable. destruct (dat x); try discriminate. intro H. apply tok_eqb_eq in H. subst. reflexivity.
Qed.
Lemma bahe_ornament bs : forallb (fun b => cmtest b T_BAhE) bs = true -> Forall ornament (map Leaf bs).
Proof.
  induction bs as [|b bs IH]; intro H; [constructor |]. cbn [forallb] in H. apply andb_true_iff in H. destruct H as [H1 H2].
  constructor; [apply bahe_attach; exact H1 | auto].
Qed.
Lemma bahe_ornaments n : forall x, node_size x <= n -> decorated x -> forallb (fun b => cmtest b T_BAhE) (bahe_chain x) = true.
Proof.
  induction n as [|n IH]; intros x S D; [destruct x; cbn in S; lia |].
  destruct x as [d l c b g k u]. destruct (decorated_inv _ _ _ _ _ _ _ D) as [B _].
  cbn [bahe_chain]. destruct b as [z|]; [|constructor].
  destruct (B z eq_refl) as [A Dz]. rewrite forallb_app. apply andb_true_iff. split.
  - apply IH; [cbn in S; lia | exact Dz].
  - cbn [forallb]. rewrite andb_true_r, <- A. destruct z; reflexivity.
Qed.

Lemma size_in y u : In y u -> node_size y <= list_sum (map node_size u).
Proof.
  induction u as [|a u IH]; [intros [] |]. unfold list_sum in *. cbn [map fold_right].
  intros [->|H]; [lia | specialize (IH H); lia].
Qed.

Lemma ornament_expand n : forall x, node_size x <= n -> attachable x = true -> decorated x -> ornament (expand_leaf x).
Proof.
  induction n as [|n IH]; intros x S A D; [destruct x; cbn in S; lia |].
  pose proof (bahe_ornaments _ x (le_n _) D) as BO.
  destruct x as [d l c b g k u]. destruct (decorated_inv _ _ _ _ _ _ _ D) as [B U].
  cbn [expand_leaf].
  assert (E : ornament (NT "AUGMENTED" (map Leaf (bahe_chain (Node d l c b g k u)) ++
      Leaf (Node d l c (option_map (set_bahe None) b) g k []) :: map expand_leaf u))).
  { apply ornament_NT. split; [reflexivity |]. apply Forall_app. split; [apply bahe_ornament; exact BO |]. constructor; [exact A |].
    apply Forall_map. rewrite Forall_forall in U |- *. intros y Y. destruct (U y Y) as [Ay Dy].
    apply IH; [| exact Ay | exact Dy]. pose proof (size_in y u Y). cbn in S. lia. }
  destruct b; [exact E |]. destruct u; [exact A | exact E].
Qed.

Lemma wordlike_expand t x : is_word t x -> decorated x -> wordlike t (expand_leaf x).
Proof.
  intros W D. pose proof (bahe_ornaments _ x (le_n _) D) as BO.
  destruct x as [d l c b g k u]. destruct (decorated_inv _ _ _ _ _ _ _ D) as [B U].
  cbn [expand_leaf].
  assert (E : wordlike t (NT "AUGMENTED" (map Leaf (bahe_chain (Node d l c b g k u)) ++
      Leaf (Node d l c (option_map (set_bahe None) b) g k []) :: map expand_leaf u))).
  { apply wl_augmented; [exact BO | eapply word_dat; [|exact W]; reflexivity |].
    apply Forall_map. eapply Forall_impl; [|exact U]. intros y [Ay Dy]. eapply ornament_expand; eauto. }
  destruct b; [exact E |]. destruct u; [constructor; exact W | exact E].
Qed.

Lemma word_value t x : is_word t x -> value_of x = Some (t, Ptr x).
Proof. unfold is_word, value_of. destruct (dat x); intro H; try exact H; try exact (proj2 H); exact (False_ind _ H). Qed.
Lemma wordlike_inv t c : wordlike t c -> (exists x, is_word t x /\ c = Leaf x) \/
  exists bs x us, Forall ornament bs /\ is_word t x /\ Forall ornament us /\ c = NT "AUGMENTED" (bs ++ Leaf x :: us).
Proof.
  intros [x X|bs x us B X U]; [left; eauto | right; exists (map Leaf bs), x, us]. split; [apply bahe_ornament; exact B | auto].
Qed.

Lemma expand_fits ss ch : fits ss ch -> Forall decorated (flat_map words ch) -> fitsx ss (map expand_internal ch).
Proof.
  induction 1 as [|ty ss ch cs F IH|t x ss cs W F IH|t ss cs F IH|t x ss cs W F IH]; intro D; cbn [map flat_map words] in *.
  - constructor.
  - constructor. apply IH. apply Forall_app in D. apply D.
  - apply Forall_app in D. destruct D as [D1 D2]. apply fx_word; [| apply IH; exact D2].
    apply wordlike_expand; [exact W |]. inversion D1; assumption.
  - apply fx_left_out. apply IH. exact D.
  - apply Forall_app in D. destruct D as [D1 D2]. apply fx_supplied; [| apply IH; exact D2].
    apply wordlike_expand; [exact W |]. inversion D1; assumption.
Qed.

Lemma expand_parsed t : derived t -> Forall decorated (words t) -> parsed (expand_internal t).
Proof.
  induction t as [x|ty ch IH] using tree_ind2; intros D W.
  - cbn [expand_internal]. destruct x as [d l c b g k u]. cbn [expand_leaf].
    destruct b; [| destruct u; [exact I |]]; apply parsed_NT; left; reflexivity.
  - cbn [expand_internal]. apply parsed_NT. right. apply derived_NT in D. destruct D as [(ss & I & F) D]. split.
    + exists ss. split; [exact I |]. apply expand_fits; assumption.
    + apply Forall_map. cbn [words] in W. clear F I.
      induction ch as [|c ch IHc]; constructor.
      * apply (Forall_inv IH); [apply (Forall_inv D) |]. apply Forall_app in W. apply W.
      * apply IHc; [apply (Forall_inv_tail IH) | apply (Forall_inv_tail D) |]. apply Forall_app in W. apply W.
Qed.

Lemma parse_expand t : parse_tree t -> parsed (expand_bahe_ui t) /\ is_nt "CHUNKS" (expand_bahe_ui t) = true.
Proof.
  intros (R & D & W). destruct t as [x|ty ch]; [discriminate R |]. split; [| exact R].
  exact (expand_parsed (NT ty ch) D W).
Qed.

(* ---------- grammar edges ---------- *)

(* the kinds of nodes and of words directly below a kind of node *)
Definition kids (ty : string) : list string :=
  flat_map (flat_map (fun s => match s with SN k => [k] | _ => [] end)) (alternatives ty).
Definition toks (ty : string) : list tok :=
  flat_map (flat_map (fun s => match s with ST t => [t] | SE t => [t] | _ => [] end)) (alternatives ty).

Lemma fitsx_child ss ch c : fitsx ss ch -> In c ch ->
  (exists ty cc, c = NT ty cc /\ In (SN ty) ss) \/
  (exists t, wordlike t c /\ (In (ST t) ss \/ In (SE t) ss)).
Proof.
  induction 1; intro I; [destruct I | destruct I as [<-|I] | destruct I as [<-|I] | | destruct I as [<-|I]].
  - left. eauto using in_eq.
  - destruct (IHfitsx I) as [(a & b & E & J)|(t & W & J)]; [left; eauto using in_cons | right; exists t].
    split; [exact W |]. destruct J; [left|right]; right; assumption.
  - right. eauto using in_eq.
  - destruct (IHfitsx I) as [(a & b & E & J)|(t' & W & J)]; [left; eauto using in_cons | right; exists t'].
    split; [exact W |]. destruct J; [left|right]; right; assumption.
  - destruct (IHfitsx I) as [(a & b & E & J)|(t' & W & J)]; [left; eauto using in_cons | right; exists t'].
    split; [exact W |]. destruct J; [left|right]; right; assumption.
  - right. eauto using in_eq.
  - destruct (IHfitsx I) as [(a & b & E & J)|(t' & W & J)]; [left; eauto using in_cons | right; exists t'].
    split; [exact W |]. destruct J; [left|right]; right; assumption.
Qed.

Lemma child_kinds ty ch c : parsed (NT ty ch) -> ty <> "AUGMENTED" -> In c ch ->
  (exists k cc, c = NT k cc /\ In k (kids ty)) \/ (exists t, wordlike t c /\ In t (toks ty)).
Proof.
  intros P A I. apply parsed_NT in P. destruct P as [E|[(ss & IS & F) _]]; [contradiction |].
  destruct (fitsx_child ss ch c F I) as [(k & cc & E & J)|(t & W & J)].
  - left. exists k, cc. split; [exact E |]. unfold kids. apply in_flat_map. exists ss. split; [exact IS |].
    apply in_flat_map. exists (SN k). split; [exact J | left; reflexivity].
  - right. exists t. split; [exact W |]. unfold toks. apply in_flat_map. exists ss. split; [exact IS |].
    apply in_flat_map. destruct J as [J|J]; [exists (ST t) | exists (SE t)]; (split; [exact J | left; reflexivity]).
Qed.

Lemma parsed_children ty ch c : parsed (NT ty ch) -> ty <> "AUGMENTED" -> In c ch -> parsed c.
Proof.
  intros P A I. apply parsed_NT in P. destruct P as [E|[_ F]]; [contradiction |].
  rewrite Forall_forall in F. apply F. exact I.
Qed.

(* ---------- analysis from the top down ---------- *)

Section WALK.
  Variable V : Type.
  Variable veqb : V -> V -> bool.
  Hypothesis veqb_eq : forall a b, veqb a b = true -> a = b.
  Variable v0 : V.
  Variable step : string -> V -> V.
  (* the value at a node: from the outside in *)
  Definition value (l : list string) : V := fold_right step v0 l.
  (* a table of possible values, those of CHUNKS for the top *)
  Variable table : list (string * list V).
  Definition poss (ty : string) : list V := flat_map (fun e => if String.eqb (fst e) ty then snd e else []) table.
  Definition vin (v : V) (l : list V) : bool := existsb (veqb v) l.
  (* every value found at a node is in the table for the nodes below *)
  Definition row_ok (g : string * list (list sym)) : bool :=
    let vs := poss (fst g) in
    forallb (fun ks => forallb (fun s =>
      match s with
      | SN k => let ps := poss k in forallb (fun v => vin (step k v) ps) vs
      | _ => true
      end) ks) (snd g).
  Hypothesis closed : forallb row_ok grammar = true.
  Hypothesis start : vin (step "CHUNKS" v0) (poss "CHUNKS") = true.

  Lemma vin_In v l : vin v l = true -> In v l.
  Proof. unfold vin. rewrite existsb_exists. intros (x & I & E). apply veqb_eq in E. subst. exact I. Qed.

  Lemma closed_kid ty k v : In k (kids ty) -> In v (poss ty) -> In (step k v) (poss k).
  Proof.
    intros K I. unfold kids in K. apply in_flat_map in K. destruct K as (ss & IS & K).
    apply in_flat_map in K. destruct K as (s & IN & K). destruct s as [k'|t|t]; [destruct K as [->|[]] | destruct K | destruct K].
    unfold alternatives in IS. apply in_flat_map in IS. destruct IS as (r & RI & IS).
    destruct (String.eqb_spec (fst r) ty) as [E|E]; [| destruct IS]. subst ty.
    pose proof closed as C. rewrite forallb_forall in C. specialize (C r RI). unfold row_ok in C.
    rewrite forallb_forall in C. specialize (C ss IS). rewrite forallb_forall in C. specialize (C _ IN).
    cbv beta iota in C. rewrite forallb_forall in C. apply vin_In. apply C. exact I.
  Qed.

  (* what is known of the node at a place, with the kinds of nodes around it *)
  Definition known (l : list string) (s : tree) : Prop :=
    match s with
    | NT k _ => k = "AUGMENTED" \/ In (value (k :: l)) (poss k)
    | Leaf x => attachable x = true \/
        exists ty up tk, l = ty :: up /\ In (value l) (poss ty) /\ is_word tk x /\ In tk (toks ty)
    end.

  Lemma known_ornament l p : forall t s, ornament t -> subtree t p = Some s -> known l s.
  Proof.
    induction p as [|i p IH]; intros t s O E.
    - injection E as <-. destruct t as [x|ty ch]; [left; exact O |]. apply ornament_NT in O. left. apply O.
    - destruct t as [x|ty ch]; [discriminate E |]. apply ornament_NT in O. destruct O as [_ F].
      cbn [subtree] in E. destruct (nth_error ch i) as [c|] eqn:N; [| discriminate E].
      apply (IH c s); [| exact E]. rewrite Forall_forall in F. apply F. eapply nth_error_In. exact N.
  Qed.

  Lemma around_ornament p : forall t s, ornament t -> subtree t p = Some s -> around t p = [].
  Proof.
    induction p as [|i p IH]; intros t s O E; [reflexivity |].
    destruct t as [x|ty ch]; [discriminate E |]. apply ornament_NT in O. destruct O as [-> F].
    cbn [subtree] in E. cbn [around]. destruct (nth_error ch i) as [c|] eqn:N; [| discriminate E].
    rewrite (IH c s); [reflexivity | | exact E]. rewrite Forall_forall in F. apply F. eapply nth_error_In. exact N.
  Qed.

  Lemma known_word tk t ty up p s : wordlike tk t -> In tk (toks ty) -> In (value (ty :: up)) (poss ty) ->
    subtree t p = Some s -> known (around t p ++ ty :: up) s.
  Proof.
    intros W K P E. destruct W as [x X|bs x us B X U].
    - destruct p; [| discriminate E]. injection E as <-. right. exists ty, up, tk. cbn [around app]. auto.
    - apply bahe_ornament in B. set (bs' := map Leaf bs) in *. clearbody bs'. clear bs. rename bs' into bs. revert B E.
      intros B E. destruct p as [|i p].
      + injection E as <-. left. reflexivity.
      + cbn [subtree] in E. cbn [around]. destruct (nth_error (bs ++ Leaf x :: us) i) as [c|] eqn:N; [| discriminate E].
        rewrite String.eqb_refl, app_nil_r.
        assert (I : ornament c \/ c = Leaf x).
        { apply nth_error_In in N. apply in_app_or in N. rewrite Forall_forall in B, U.
          destruct N as [N|[N|N]]; [left; apply B; exact N | right; congruence | left; apply U; exact N]. }
        destruct I as [O| ->].
        * rewrite (around_ornament _ _ _ O E). eapply known_ornament; eassumption.
        * destruct p; [| discriminate E]. injection E as <-. right. exists ty, up, tk. cbn [around app]. auto.
  Qed.

  Lemma no_augmented ty : ~ In "AUGMENTED" (kids ty).
  Proof.
    intro K. unfold kids in K. apply in_flat_map in K. destruct K as (ss & IS & K).
    apply in_flat_map in K. destruct K as (s & IN & K).
    unfold alternatives in IS. apply in_flat_map in IS. destruct IS as (r & RI & IS).
    destruct (String.eqb (fst r) ty); [| destruct IS].
    assert (C : forallb (fun r => forallb (forallb (fun s => match s with SN k => negb (String.eqb k "AUGMENTED") | _ => true end))
                  (snd r)) grammar = true) by (vm_compute; reflexivity).
    rewrite forallb_forall in C. specialize (C r RI). rewrite forallb_forall in C. specialize (C ss IS).
    rewrite forallb_forall in C. specialize (C s IN). destruct s as [k'|t|t]; [destruct K as [->|[]] | destruct K | destruct K].
    discriminate C.
  Qed.

  Lemma walk p : forall ty ch up s, parsed (NT ty ch) -> ty <> "AUGMENTED" -> In (value (ty :: up)) (poss ty) ->
    subtree (NT ty ch) p = Some s -> known (around (NT ty ch) p ++ up) s.
  Proof.
    induction p as [|i p IH]; intros ty ch up s P A I E.
    - injection E as <-. right. exact I.
    - cbn [subtree] in E. cbn [around]. destruct (nth_error ch i) as [c|] eqn:N; [| discriminate E].
      destruct (String.eqb_spec ty "AUGMENTED") as [X|_]; [contradiction |].
      rewrite <- app_assoc. cbn [app]. pose proof (nth_error_In _ _ N) as NI.
      destruct (child_kinds ty ch c P A NI) as [(k & cc & -> & K)|(t & W & K)].
      + apply IH; [eapply parsed_children; eassumption | intros ->; exact (no_augmented ty K) | | exact E].
        apply (closed_kid ty k (value (ty :: up)) K I).
      + eapply known_word; eassumption.
  Qed.

  Lemma walk_top t p s : parsed t -> is_nt "CHUNKS" t = true -> subtree t p = Some s -> known (around t p) s.
  Proof.
    intros P C E. destruct t as [x|ty ch]; [discriminate C |]. apply String.eqb_eq in C. subst ty.
    rewrite <- (app_nil_r (around _ _)). apply walk; [exact P | discriminate | | exact E].
    apply vin_In. exact start.
  Qed.
End WALK.

(* ---------- deciding whether a tree is a parse tree, for examples ---------- *)
Definition wordb (t : tok) (x : node) : bool :=
  match dat x with
  | N_MARKER _ => false
  | N_CMAVO s c _ => if match cmavo_selmao c with Some s' => tok_eqb s s' | None => false end
                     then match value_of x with Some (t', Ptr _) => tok_eqb t t' | _ => false end else false
  | _ => match value_of x with Some (t', Ptr _) => tok_eqb t t' | _ => false end
  end.
Lemma wordb_ok t x : wordb t x = true -> is_word t x.
Proof.
  unfold wordb, is_word, value_of. destruct (dat x); intro H; try discriminate H;
    try (apply tok_eqb_eq in H; subst; reflexivity).
  destruct (cmavo_selmao _) as [s'|]; [| discriminate H]. destruct (tok_eqb _ s') eqn:E; [| discriminate H].
  apply tok_eqb_eq in E. subst s'. split; [reflexivity |]. destruct (tok_eqb _ T_FAhO); [discriminate H |].
  apply tok_eqb_eq in H. subst. reflexivity.
Qed.
Fixpoint fitsb (ss : list sym) (ch : list tree) : bool :=
  match ss, ch with
  | [], [] => true
  | SN ty :: ss, NT k _ :: ch => if String.eqb k ty then fitsb ss ch else false
  | ST t :: ss, Leaf x :: ch => if wordb t x then fitsb ss ch else false
  | SE t :: ss, Leaf x :: ch' => if fitsb ss ch then true else if wordb t x then fitsb ss ch' else false
  | SE t :: ss, _ => fitsb ss ch
  | _, _ => false
  end.
Lemma fitsb_ok ss : forall ch, fitsb ss ch = true -> fits ss ch.
Proof.
  induction ss as [|[ty|t|t] ss IH]; intros [|[x|k cc] ch] H; cbn [fitsb] in H; try discriminate H.
  - constructor.
  - destruct (String.eqb_spec k ty); [subst; constructor; auto | discriminate H].
  - destruct (wordb t x) eqn:W; [constructor; [apply wordb_ok; exact W | auto] | discriminate H].
  - apply fits_left_out. auto.
  - destruct (fitsb ss (Leaf x :: ch)) eqn:F; [apply fits_left_out; auto |].
    destruct (wordb t x) eqn:W; [apply fits_supplied; [apply wordb_ok; exact W | auto] | discriminate H].
  - apply fits_left_out. auto.
Qed.
Fixpoint derivedb (t : tree) : bool :=
  match t with
  | Leaf _ => true
  | NT ty ch => if existsb (fun ss => fitsb ss ch) (alternatives ty) then forallb derivedb ch else false
  end.
Lemma derivedb_ok t : derivedb t = true -> derived t.
Proof.
  induction t as [x|ty ch IH] using tree_ind2; cbn [derivedb]; intro H; [exact I |]. apply derived_NT.
  destruct (existsb (fun ss => fitsb ss ch) (alternatives ty)) eqn:E; [| discriminate H]. split.
  - apply existsb_exists in E. destruct E as (ss & I & F). exists ss. split; [exact I | apply fitsb_ok; exact F].
  - rewrite forallb_forall in H. rewrite Forall_forall in IH |- *. intros c C. apply IH; [exact C | apply H; exact C].
Qed.
Fixpoint decob (n : nat) (x : node) : bool :=
  match n, x with
  | S n, Node _ _ _ b _ _ u =>
      match b with Some z => if cmtest z T_BAhE then decob n z else false | None => true end &&
      forallb (fun y => if attachable y then decob n y else false) u
  | 0, _ => false
  end.
Lemma decob_ok n : forall x, decob n x = true -> decorated x.
Proof.
  induction n as [|n IH]; intros x H; [discriminate H |]. destruct x as [d l c b g k u]. cbn [decob] in H.
  apply andb_true_iff in H. destruct H as [H1 H2]. cbn [decorated]. split.
  - destruct b as [z|]; [| exact I]. destruct (cmtest z T_BAhE); [auto | discriminate H1].
  - clear H1. induction u as [|y u IHu]; [exact I |]. cbn [forallb] in H2. apply andb_true_iff in H2. destruct H2 as [Y U].
    destruct (attachable y); [| discriminate Y]. split; [reflexivity |]. split; [apply IH; exact Y | apply IHu; exact U].
Qed.
Definition parse_treeb (t : tree) : bool := if is_nt "CHUNKS" t then if derivedb t then forallb (decob 5) (words t) else false else false.
Lemma parse_treeb_ok t : parse_treeb t = true -> parse_tree t.
Proof.
  unfold parse_treeb, parse_tree. destruct (is_nt "CHUNKS" t); [| discriminate]. destruct (derivedb t) eqn:D; [| discriminate].
  intro H. split; [reflexivity |]. split; [apply derivedb_ok; exact D |]. rewrite forallb_forall in H. apply Forall_forall.
  intros x X. eapply decob_ok. apply H. exact X.
Qed.
