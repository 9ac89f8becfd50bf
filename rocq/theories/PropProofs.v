From Coq Require Import List Bool Arith ZArith Lia.
From Verif Require Import Base PropModel PropSpec.
Import ListNotations.

Lemma ext_of_inj a b : ext_of a = ext_of b -> a = b.
Proof. destruct a, b; cbn; intro H; try reflexivity; discriminate H. Qed.
Lemma cells_app h u l : cells (h ++ [u]) l = cells [u] (cells h l).
Proof. revert l. induction h as [|[x p [|]|q f v|q f] h IH]; intro l; [reflexivity | cbn [app cells]; apply IH ..]. Qed.
Lemma last_set_app h u q f b : last_set (h ++ [u]) q f b = last_set [u] q f (last_set h q f b).
Proof. revert b. induction h as [|[x p c|q' f' v|q' f'] h IH]; intro b; [reflexivity | cbn [app last_set]; apply IH ..]. Qed.

Lemma place_nth k l : forall q, place k l = Some q -> nth_error l q = Some k.
Proof.
  induction l as [|k' l IH]; intros q; cbn [place]; [discriminate |]. destruct (key_eq_dec k k') as [->|N]; intro H; [injection H as <-; reflexivity |].
  destruct (place k l) as [q'|]; [| discriminate H]. injection H as <-. exact (IH q' eq_refl).
Qed.
Lemma place_none k l : place k l = None -> ~ In k l.
Proof.
  induction l as [|k' l IH]; cbn [place In]; [auto |]. destruct (key_eq_dec k k') as [->|N]; [discriminate |]. destruct (place k l) as [q'|]; [discriminate |]. intros _ [E|I]; [congruence | exact (IH eq_refl I)].
Qed.
Lemma place_of l : NoDup l -> forall q k, nth_error l q = Some k -> place k l = Some q.
Proof.
  intros ND q k N. destruct (place k l) as [q'|] eqn:P.
  - apply place_nth in P. f_equal. rewrite NoDup_nth_error in ND. apply ND; [apply nth_error_Some; rewrite P; discriminate | congruence].
  - exfalso. exact (place_none _ _ P (nth_error_In _ _ N)).
Qed.
Lemma cells_nodup h : forall l, NoDup l -> NoDup (cells h l).
Proof.
  induction h as [|[x p [|]|q f v|q f] h IH]; intros l ND; cbn [cells]; auto. apply IH. destruct (in_dec _ _ _) as [I|I]; [exact ND |].
  apply NoDup_rev in ND. rewrite <- (rev_involutive (l ++ [(x, p)])). apply NoDup_rev. rewrite rev_app_distr. cbn [rev app]. constructor; [| exact ND]. intro J. apply in_rev in J. contradiction.
Qed.

(* the last cell of a node before the n-th *)
Fixpoint prevat (l : list key) (x n : nat) : option nat :=
  match n with O => None | S n => match nth_error l n with Some (y, _) => if Nat.eqb y x then Some n else prevat l x n | None => prevat l x n end end.
Fixpoint lk (l : list key) (x : nat) (t : ext) (n : nat) : option nat :=
  match n with
  | O => None
  | S n => match nth_error l n with Some (y, p) => if Nat.eqb y x then if ext_eq_dec (ext_of p) t then Some n else lk l x t n else lk l x t n | None => lk l x t n end
  end.
Lemma prevat_app l l' x n : n <= length l -> prevat (l ++ l') x n = prevat l x n.
Proof. induction n as [|n IH]; intro L; cbn [prevat]; [reflexivity |]. rewrite nth_error_app1, IH by lia. reflexivity. Qed.
Lemma lk_some l x t n q : lk l x t n = Some q -> exists p, nth_error l q = Some (x, p) /\ ext_of p = t.
Proof.
  induction n as [|n IH]; cbn [lk]; [discriminate |]. destruct (nth_error l n) as [[y p]|] eqn:N; [| exact IH]. destruct (Nat.eqb_spec y x) as [->|]; [| exact IH].
  destruct (ext_eq_dec (ext_of p) t) as [E|]; [| exact IH]. intro H. injection H as <-. exists p. auto.
Qed.
Lemma lk_none l x t n : lk l x t n = None -> forall q p, q < n -> nth_error l q = Some (x, p) -> ext_of p <> t.
Proof.
  induction n as [|n IH]; cbn [lk]; intros H q p L N E; [lia |]. destruct (Nat.eq_dec q n) as [->|D].
  - rewrite N, Nat.eqb_refl in H. destruct (ext_eq_dec (ext_of p) t); [discriminate H | contradiction].
  - assert (H' : lk l x t n = None).
    { destruct (nth_error l n) as [[y p']|]; [| exact H]. destruct (Nat.eqb y x); [| exact H]. destruct (ext_eq_dec _ _); [discriminate H | exact H]. }
    apply (IH H' q p); [lia | exact N | exact E].
Qed.
Lemma lk_place l x p : NoDup l -> lk l x (ext_of p) (length l) = place (x, p) l.
Proof.
  intro ND. destruct (lk l x (ext_of p) (length l)) as [q|] eqn:L.
  - apply lk_some in L. destruct L as (p' & N & E). apply ext_of_inj in E. subst. symmetry. apply place_of; assumption.
  - destruct (place (x, p) l) as [q|] eqn:P; [| reflexivity]. apply place_nth in P. exfalso. apply (lk_none _ _ _ _ L q p); [apply nth_error_Some; rewrite P; discriminate | exact P | reflexivity].
Qed.

Record inv (h : heap) (hist : list use) (l : list key) : Prop := Inv {
  i_len : length (recs h) = length l;
  i_nodup : NoDup l;
  i_head : forall x, ext_of_node h x = prevat l x (length l);
  i_rec : forall q x p, nth_error l q = Some (x, p) -> exists r, nth_error (recs h) q = Some r /\ type r = ext_of p /\ next r = prevat l x q /\
            forall f, data r f = last_set hist q f (at_first (x, p) f);
  i_new : forall q f b, length l <= q -> last_set hist q f b = b }.

Lemma loop_lk h hist l x t : inv h hist l -> forall n fuel, n < fuel -> n <= length l -> lookup_loop fuel h (prevat l x n) t = Ok (lk l x t n).
Proof.
  intro I. induction n as [|n IH]; intros fuel F L; [destruct fuel; [lia | reflexivity] |].
  cbn [prevat lk]. destruct (nth_error l n) as [[y p]|] eqn:N; [| apply IH; lia]. destruct (Nat.eqb_spec y x) as [->|]; [| apply IH; lia].
  destruct fuel as [|fuel]; [lia |]. cbn [lookup_loop]. destruct (i_rec _ _ _ I n x p N) as (r & R & T & X & _). rewrite R, T. destruct (ext_eq_dec (ext_of p) t); [reflexivity |]. rewrite X. apply IH; lia.
Qed.
Lemma lookup_place h hist l x p : inv h hist l -> lookup_extension h x (ext_of p) = Ok (place (x, p) l).
Proof.
  intro I. unfold lookup_extension. rewrite (i_head _ _ _ I), (i_len _ _ _ I). rewrite (loop_lk _ _ _ _ _ I) by lia. rewrite lk_place; [reflexivity | exact (i_nodup _ _ _ I)].
Qed.

(* the heap with one more record *)
Definition grown (h : heap) (x : nat) (t : ext) (d : nat -> option Z) : heap :=
  Heap (recs h ++ [Extension (ext_of_node h x) t d]) (fun z => if Nat.eqb z x then Some (length (recs h)) else ext_of_node h z).
Lemma grown_inv h hist l x p : inv h hist l -> ~ In (x, p) l ->
  inv (grown h x (ext_of p) (at_first (x, p))) (hist ++ [Ask x p true]) (l ++ [(x, p)]).
Proof.
  intros I NI. pose proof (i_len _ _ _ I) as L. unfold grown. split; cbn [recs ext_of_node].
  - rewrite !app_length, L. reflexivity.
  - pose proof (cells_nodup [Ask x p true] l (i_nodup _ _ _ I)) as C. cbn [cells] in C. destruct (in_dec key_eq_dec (x, p) l); [contradiction | exact C].
  - intro z. rewrite app_length. cbn [length]. rewrite Nat.add_1_r. cbn [prevat]. rewrite nth_error_app2, Nat.sub_diag by lia. cbn [nth_error].
    rewrite (Nat.eqb_sym z x), L. destruct (Nat.eqb x z); [reflexivity |]. rewrite prevat_app by lia. apply (i_head _ _ _ I).
  - intros q y p' N. destruct (Nat.lt_ge_cases q (length l)) as [Q|Q].
    + rewrite nth_error_app1 in N by lia. destruct (i_rec _ _ _ I q y p' N) as (r & R & T & X & D). exists r. rewrite nth_error_app1 by lia. split; [exact R |]. split; [exact T |].
      split; [rewrite prevat_app by lia; exact X |]. intro f. rewrite last_set_app. cbn [last_set]. apply D.
    + assert (Q' : q = length l) by (assert (q < length (l ++ [(x, p)])) by (apply nth_error_Some; rewrite N; discriminate); rewrite app_length in *; cbn [length] in *; lia). subst q.
      rewrite nth_error_app2, Nat.sub_diag in N by lia. injection N as <- <-. eexists. rewrite nth_error_app2, L, Nat.sub_diag by lia. cbn [nth_error]. split; [reflexivity |].
      cbn [type next data]. split; [reflexivity |]. split; [rewrite prevat_app by lia; apply (i_head _ _ _ I) |]. intro f. rewrite last_set_app. cbn [last_set]. rewrite (i_new _ _ _ I) by lia. reflexivity.
  - intros q f b Q. rewrite app_length in Q. cbn [length] in Q. rewrite last_set_app. cbn [last_set]. apply (i_new _ _ _ I). lia.
Qed.
Lemma same_inv h hist l u : inv h hist l -> (match u with Set_ _ _ _ => False | _ => True end) -> inv h (hist ++ [u]) l.
Proof.
  intros [L ND H R N] U. split; auto.
  - intros q x p K. destruct (R q x p K) as (r & A & B & C & D). exists r. repeat (split; [assumption |]). intro f. rewrite last_set_app. destruct u; [exact (D f) | destruct U | exact (D f)].
  - intros q f b Q. rewrite last_set_app. destruct u; cbn [last_set]; [auto | destruct U | auto].
Qed.
Lemma put_at_nth l : forall p f v, p < length l -> exists l', put_at l p f v = Some l' /\ length l' = length l /\
  forall q r, nth_error l q = Some r -> exists r', nth_error l' q = Some r' /\ type r' = type r /\ next r' = next r /\
    forall g, data r' g = if Nat.eqb p q && Nat.eqb f g then Some v else data r g.
Proof.
  induction l as [|r l IH]; intros p f v P; cbn [length] in P; [lia |]. destruct p as [|p]; cbn [put_at].
  - eexists. split; [reflexivity |]. split; [reflexivity |]. intros [|q] r' N; cbn [nth_error] in *.
    + injection N as <-. eexists. split; [reflexivity |]. cbn [type next data]. repeat (split; [reflexivity |]). intro g. rewrite Nat.eqb_refl, (Nat.eqb_sym f). reflexivity.
    + exists r'. repeat (split; [assumption || reflexivity |]). reflexivity.
  - destruct (IH p f v) as (l' & E & LE & X); [lia |]. rewrite E. cbn [option_map]. eexists. split; [reflexivity |]. split; [cbn [length]; lia |].
    intros [|q] r' N; cbn [nth_error] in *; [injection N as <-; exists r; repeat (split; [reflexivity |]); reflexivity |].
    destruct (X q r' N) as (r2 & A & B & C & D). exists r2. repeat (split; [assumption |]). exact D.
Qed.
Lemma put_at_out l : forall p f v, length l <= p -> put_at l p f v = None.
Proof. induction l as [|r l IH]; intros [|p] f v P; cbn [length put_at] in *; try lia; try reflexivity. rewrite IH by lia. reflexivity. Qed.
Lemma put_at_last l r f v : put_at (l ++ [r]) (length l) f v = Some (l ++ [Extension (next r) (type r) (fun g => if Nat.eqb g f then Some v else data r g)]).
Proof. induction l as [|r' l IH]; cbn [app length put_at]; [reflexivity |]. rewrite IH. reflexivity. Qed.

Lemma in_place k l : In k l -> place k l <> None.
Proof. intros I P. exact (place_none _ _ P I). Qed.
Lemma place_last l k : ~ In k l -> place k (l ++ [k]) = Some (length l).
Proof.
  induction l as [|k' l IH]; cbn [app place length In]; intro N; [destruct (key_eq_dec k k); [reflexivity | contradiction] |].
  destruct (key_eq_dec k k') as [->|D]; [exfalso; apply N; left; reflexivity |]. rewrite IH by tauto. reflexivity.
Qed.

(* the two ways properties are made, as one *)
Lemma prop_new h hist l x p : inv h hist l -> place (x, p) l = None ->
  exists d, prop_ h x p true = Ok (grown h x (ext_of p) d, Some (length l)) /\ forall f, d f = at_first (x, p) f.
Proof.
  intros I P. pose proof (lookup_place _ _ _ x p I) as LP. rewrite P in LP. pose proof (i_len _ _ _ I) as L.
  destruct p; try (exists (fun _ => None); split; [| reflexivity]; unfold prop_, fetch_conversion, obtain_extension; rewrite LP; cbn [obind fst snd]; unfold grown; rewrite L; reflexivity).
  exists (fun g => if Nat.eqb g is_tertau then Some 0%Z else None). split; [| reflexivity].
  unfold prop_, fetch_conversion at 1. cbn [ext_of] in LP. rewrite LP. cbn [obind fst snd]. unfold fetch_conversion, obtain_extension. rewrite LP. cbn [obind fst snd]. unfold put. cbn [recs ext_of_node].
  rewrite put_at_last. cbn [obind next type data]. unfold grown. rewrite L. reflexivity.
Qed.
Lemma inv_ext h h' hist l x p d : (forall f, d f = at_first (x, p) f) -> inv (grown h x (ext_of p) (at_first (x, p))) hist l -> h' = grown h x (ext_of p) d -> inv h' hist l.
Proof.
  intros E [L ND H R N] ->. split; auto.
  - unfold grown in *. cbn [recs] in *. rewrite app_length in *. exact L.
  - intros q y p' K. destruct (R q y p' K) as (r & A & B & C & D). unfold grown in *. cbn [recs] in *. destruct (Nat.lt_ge_cases q (length (recs h))) as [Q|Q].
    + rewrite nth_error_app1 in * by lia. exists r. auto.
    + rewrite nth_error_app2 in * by lia. destruct (q - length (recs h)) as [|[|k]]; [| discriminate A | discriminate A]. injection A as <-. eexists. split; [reflexivity |]. cbn [type next data] in *. repeat (split; [assumption |]). intro f. rewrite E. apply D.
Qed.

Lemma use_ok h hist l u : inv h hist l -> l = cells hist [] ->
  match expected hist u with
  | Some a => exists h', do_use h u = Ok (h', a) /\ inv h' (hist ++ [u]) (cells (hist ++ [u]) [])
  | None => do_use h u = UB UB_bounds
  end.
Proof.
  intros I EL. unfold expected. rewrite <- EL. destruct u as [x p create|q f v|q f]; cbn [do_use].
  - rewrite cells_app, <- EL. destruct create; cbn [cells].
    + destruct (place (x, p) l) as [q|] eqn:P.
      * assert (IN : In (x, p) l) by (apply place_nth in P; exact (nth_error_In _ _ P)). destruct (in_dec key_eq_dec (x, p) l); [| contradiction]. rewrite P.
        exists h. split; [| apply same_inv; [exact I | exact Logic.I]].
        pose proof (lookup_place _ _ _ x p I) as LP. rewrite P in LP. destruct p; cbn [prop_]; unfold fetch_conversion, obtain_extension; cbn [ext_of] in *; rewrite LP; reflexivity.
      * pose proof (place_none _ _ P) as NI. destruct (in_dec key_eq_dec (x, p) l); [contradiction |]. rewrite place_last by exact NI.
        pose proof (grown_inv _ _ _ _ _ I NI) as G. destruct (prop_new _ _ _ _ _ I P) as (d & E & D).
        exists (grown h x (ext_of p) d). rewrite E. split; [reflexivity |]. exact (inv_ext _ _ _ _ _ _ _ D G eq_refl).
    + exists h. split; [| apply same_inv; [exact I | exact Logic.I]].
      pose proof (lookup_place _ _ _ x p I) as LP. destruct p; cbn [prop_]; unfold fetch_conversion; cbn [ext_of] in *; rewrite LP; cbn [obind fst snd]; try reflexivity. destruct (place (x, glosstype) l); reflexivity.
  - rewrite cells_app, <- EL. cbn [cells]. pose proof (i_len _ _ _ I) as L. unfold put. destruct (Nat.ltb_spec q (length l)) as [Q|Q].
    + destruct (put_at_nth (recs h) q f v) as (l' & E & LE & X); [lia |]. rewrite E. cbn [obind]. eexists. split; [reflexivity |].
      destruct I as [I1 I2 I3 I4 I5]. split; cbn [recs ext_of_node]; auto; [congruence | |].
      * intros q' y p K. destruct (I4 q' y p K) as (r & A & B & C & D). destruct (X q' r A) as (r' & A' & B' & C' & D'). exists r'. split; [exact A' |]. split; [congruence |]. split; [congruence |].
        intro g. rewrite D', last_set_app. cbn [last_set]. rewrite D. reflexivity.
      * intros q' g b Q'. rewrite last_set_app. cbn [last_set]. destruct (Nat.eqb_spec q q'); [lia |]. cbn [andb]. apply I5. exact Q'.
    + rewrite put_at_out by lia. reflexivity.
  - unfold get. destruct (nth_error l q) as [[x p]|] eqn:N.
    + destruct (i_rec _ _ _ I q x p N) as (r & R & _ & _ & D). rewrite R. cbn [obind]. exists h. rewrite D. split; [reflexivity |]. rewrite cells_app, <- EL. apply same_inv; [exact I | exact Logic.I].
    + pose proof (i_len _ _ _ I) as L. apply nth_error_None in N. assert (M : nth_error (recs h) q = None) by (apply nth_error_None; lia). rewrite M. reflexivity.
Qed.
Lemma uses_ok us : forall h hist, inv h hist (cells hist []) ->
  do_uses h us = match all_expected hist us with Some l => Ok l | None => UB UB_bounds end.
Proof.
  induction us as [|u us IH]; intros h hist I; cbn [do_uses all_expected]; [reflexivity |].
  pose proof (use_ok _ _ _ u I eq_refl) as X. destruct (expected hist u) as [a|]; [| rewrite X; reflexivity].
  destruct X as (h' & E & I'). rewrite E. cbn [obind fst snd]. rewrite (IH _ _ I'). destruct (all_expected (hist ++ [u]) us); reflexivity.
Qed.
Lemma inv0 : inv heap0 [] [].
Proof. split; cbn; auto; [constructor |]. intros q x p N. destruct q; discriminate N. Qed.
Lemma uses_table us : do_uses heap0 us = match all_expected [] us with Some l => Ok l | None => UB UB_bounds end.
Proof. exact (uses_ok us heap0 [] inv0). Qed.

(* ---- pointers ---- *)
Lemma expected_nth us : forall hist l i u a, all_expected hist us = Some l -> nth_error us i = Some u -> nth_error l i = Some a ->
  expected (hist ++ firstn i us) u = Some a.
Proof.
  induction us as [|w us IH]; intros hist l i u a; cbn [all_expected]; intros E U A; [destruct i; discriminate U |].
  destruct (expected hist w) as [b|] eqn:X; [| discriminate E]. destruct (all_expected (hist ++ [w]) us) as [l'|] eqn:Y; [| discriminate E]. injection E as <-.
  destruct i as [|i]; cbn [nth_error firstn] in *.
  - injection U as ->. injection A as ->. rewrite app_nil_r. exact X.
  - pose proof (IH _ _ _ _ _ Y U A) as Z. rewrite <- app_assoc in Z. exact Z.
Qed.
Lemma cells_grow h : forall l, exists l', cells h l = l ++ l'.
Proof.
  induction h as [|[x p [|]|q f v|q f] h IH]; intro l; cbn [cells]; try apply IH; [exists []; rewrite app_nil_r; reflexivity |].
  destruct (in_dec _ _ _); [apply IH |]. destruct (IH (l ++ [(x, p)])) as (l' & E). exists ((x, p) :: l'). rewrite E, <- app_assoc. reflexivity.
Qed.
Lemma cells_app2 a b l : cells (a ++ b) l = cells b (cells a l).
Proof. revert l. induction a as [|[x p [|]|q f v|q f] a IH]; intro l; [reflexivity | cbn [app cells]; apply IH ..]. Qed.
Lemma ask_nth us l i x p c q : all_expected [] us = Some l -> nth_error us i = Some (Ask x p c) -> nth_error l i = Some (Pointer (Some q)) -> nth_error (cells us []) q = Some (x, p).
Proof.
  intros E U A. pose proof (expected_nth _ _ _ _ _ _ E U A) as X. unfold expected in X. injection X as X. apply place_nth in X.
  assert (SP : us = (firstn i us ++ [Ask x p c]) ++ skipn (S i) us).
  { rewrite <- app_assoc. cbn [app]. clear -U. revert i U. induction us as [|w us IH]; intros [|i] U; try discriminate U; [injection U as ->; reflexivity |]. cbn [firstn app]. f_equal. exact (IH i U). }
  rewrite SP, cells_app2. destruct (cells_grow (skipn (S i) us) (cells (firstn i us ++ [Ask x p c]) [])) as (l' & G). rewrite G, nth_error_app1; [exact X |]. apply nth_error_Some. rewrite X. discriminate.
Qed.
Lemma pointers us rs i j x p c y p' c' q q' : do_uses heap0 us = Ok rs ->
  nth_error us i = Some (Ask x p c) -> nth_error rs i = Some (Pointer (Some q)) -> nth_error us j = Some (Ask y p' c') -> nth_error rs j = Some (Pointer (Some q')) ->
  (q = q' <-> x = y /\ p = p').
Proof.
  rewrite uses_table. destruct (all_expected [] us) as [l|] eqn:E; [| discriminate]. intro H. injection H as <-. intros U A U' A'.
  pose proof (ask_nth _ _ _ _ _ _ _ E U A) as N. pose proof (ask_nth _ _ _ _ _ _ _ E U' A') as N'. split.
  - intros <-. rewrite N in N'. injection N' as <- <-. auto.
  - intros [<- <-]. pose proof (cells_nodup us [] (NoDup_nil _)) as ND. rewrite NoDup_nth_error in ND. apply ND; [apply nth_error_Some; rewrite N; discriminate | congruence].
Qed.
