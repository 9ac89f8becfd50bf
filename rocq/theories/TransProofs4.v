From Coq Require Import String Ascii List NArith ZArith Bool Arith Lia.
From Verif Require Import Base Arr DictModel TransModel TransSpec TransProofs TransProofs2 TransProofs3.
From Verif Require LujvoData LujvoModel LujvoProofs9 MorfModel MorfProofs MorfProofs2 LujvoProofs DfaModel.
Import ListNotations.
Open Scope string_scope.
Open Scope list_scope.

(* ---- the canonical form ---- *)
Lemma table_plain : forallb (fun e => if has "+" (snd e) then false else if has "*" (snd e) then false else Nat.leb (String.length (snd e)) 5) LujvoData.r2g = true.
Proof. vm_compute. reflexivity. Qed.
Lemma lookup_plain x : has "+" (LujvoModel.lookup_component x) = false /\ has "*" (LujvoModel.lookup_component x) = false /\
  String.length (LujvoModel.lookup_component x) <= 5.
Proof.
  unfold LujvoModel.lookup_component. destruct (find _ LujvoData.r2g) as [e|] eqn:F; [| cbn; repeat split; lia].
  apply find_some in F. destruct F as (I & _). pose proof table_plain as T. rewrite forallb_forall in T. specialize (T e I). cbv beta in T.
  destruct (has "+" (snd e)); [discriminate |]. destruct (has "*" (snd e)); [discriminate |]. apply Nat.leb_le in T. auto.
Qed.
Local Opaque LujvoModel.lookup_component.
Lemma existsb_has c w : existsb (LujvoModel.ceq c) (list_ascii_of_string w) = has c w.
Proof. induction w as [|d w IH]; cbn; [reflexivity |]. rewrite IH. reflexivity. Qed.
Lemma canon_plus w : has "+" w = true -> canon w = Ok (Some w).
Proof.
  intro H. unfold canon, LujvoModel.canon_lujvo. rewrite existsb_has, H, string_of_list_ascii_of_string. reflexivity.
Qed.
Lemma slen w : List.length (list_ascii_of_string w) = String.length w.
Proof. induction w; cbn; congruence. Qed.
Lemma canon_ok w : exists r, canon w = Ok r. Proof. apply LujvoProofs9.canon_total. Qed.
Lemma split_short f x l : List.length x <= 5 -> LujvoModel.split_lujvo (S f) x = Ok (Some l) ->
  l = [LujvoModel.lookup_component x] \/ l = [string_of_list_ascii x].
Proof.
  intro L. cbn [LujvoModel.split_lujvo]. remember (LujvoModel.lookup_component x) as k eqn:K. clear K.
  destruct (List.length x) as [|[|[|[|[|[|n]]]]]]; [| | | | | |lia]; intro E; try discriminate E; injection E as <-; auto.
Qed.
Lemma canon_short w c : String.length w <= 5 -> has "+" w = false -> canon w = Ok (Some c) -> has "+" c = false.
Proof.
  intros L H. unfold canon, LujvoModel.canon_lujvo. rewrite existsb_has, H.
  destruct (LujvoModel.contains_compound_consonant _); [| discriminate]. rewrite <- slen in L.
  destruct (LujvoModel.split_lujvo _ _) as [[l|]| | | |] eqn:S; cbn [obind option_map]; try discriminate.
  apply split_short in S; [| exact L]. intro E. assert (c = LujvoModel.plus l) as -> by congruence.
  destruct S as [->| ->]; cbn [LujvoModel.plus String.concat].
  - exact (proj1 (lookup_plain _)).
  - rewrite string_of_list_ascii_of_string. exact H.
Qed.
Lemma split_star f : forall x l, LujvoModel.split_lujvo f x = Ok (Some l) -> ~ In "*"%char x -> Forall (fun s => has "*" s = false) l.
Proof.
  induction f as [|f IH]; intros x l; [discriminate |]. cbn [LujvoModel.split_lujvo].
  destruct (List.length x) as [|[|[|[|[|[|n]]]]]]; try discriminate.
  - intros E _. injection E as <-. constructor; [apply lookup_plain | constructor].
  - intros E _. injection E as <-. constructor; [apply lookup_plain | constructor].
  - intros E N. injection E as <-. constructor; [| constructor]. apply has_not. unfold letter_in. rewrite list_ascii_of_string_of_list_ascii. exact N.
  - destruct (LujvoModel.front x) as [(len & hy)|]; [| discriminate]. unfold LujvoModel.strip.
    destruct (LujvoModel.split_lujvo f (skipn (len + hy) x)) as [[l'|]| | | |] eqn:S; cbn [obind option_map]; try discriminate.
    intros E N. injection E as <-. constructor; [apply lookup_plain |]. eapply IH; [exact S |].
    intro I. apply N. rewrite <- (firstn_skipn (len + hy) x). apply in_or_app. right. exact I.
Qed.
Lemma concat_in c l : letter_in c (String.concat "+" l) -> c = "+"%char \/ exists s, In s l /\ letter_in c s.
Proof.
  unfold letter_in. induction l as [|a l IH]; [intros [] |]. destruct l as [|b l].
  - cbn [String.concat]. intro I. right. exists a. cbn. auto.
  - change (String.concat "+" (a :: b :: l)) with (a ++ "+" ++ String.concat "+" (b :: l))%string. rewrite !loas_app. intro I.
    apply in_app_or in I. destruct I as [I|I]; [right; exists a; cbn; auto |]. apply in_app_or in I. destruct I as [[I|[]]|I]; [left; auto |].
    destruct (IH I) as [E|(s & J & K)]; [auto | right; exists s; cbn in *; tauto].
Qed.
Lemma canon_star w c : canon w = Ok (Some c) -> starless w -> starless c.
Proof.
  unfold canon, LujvoModel.canon_lujvo. rewrite existsb_has. destruct (has "+" w) eqn:H.
  - intros E N. injection E as <-. rewrite string_of_list_ascii_of_string. exact N.
  - destruct (LujvoModel.contains_compound_consonant _); [| discriminate].
    destruct (LujvoModel.split_lujvo _ (list_ascii_of_string w)) as [[l|]| | | |] eqn:S; cbn [obind option_map]; try discriminate.
    intros E N. injection E as <-. apply split_star in S; [| exact N]. intro I. apply concat_in in I. destruct I as [I|(s & I & J)]; [discriminate I |].
    rewrite Forall_forall in S. specialize (S s I). apply has_not in S. contradiction.
Qed.

(* ---- short words are not borrowings ---- *)
Definition is_stage3 (e : string) : bool :=
  match MorfModel.category e with
  | (MorfModel.W_FUIVLA3, _) | (MorfModel.W_FUIVLA3_CVC, _) | (MorfModel.W_FUIVLA3X, _) | (MorfModel.W_FUIVLA3X_CVC, _) => true
  | _ => false
  end.
(* letters needed to come to a state: a lower bound *)
Fixpoint bfs (k : nat) (d : N) (front : list N) (seen : arr N) : arr N :=
  match k with
  | O => seen
  | S k =>
      let '(nw, seen) := fold_left (fun a s =>
          fold_left (fun a t => match MorfProofs.nx s t with
                                | Some y => if N.ltb (match aget (snd a) y with Some v => v | None => 6%N end) 6 then a else
                                            (y :: fst a, aset (snd a) y (d + 1)%N)
                                | None => a end) (DfaModel.upto 21) a) front ([], seen) in
      bfs k (d + 1)%N nw seen
  end.
Definition depths : arr N := Eval vm_compute in bfs 5 0 [0%N] (aset (aof (map (fun _ => 6%N) (DfaModel.upto 737))) 0 0%N).
Definition depth (s : N) : N := match aget depths s with Some v => v | None => 6%N end.
Lemma depths_checked : forallb (fun s => forallb (fun t => match MorfProofs.nx s t with Some y => N.leb (depth y) (depth s + 1) | None => true end) (DfaModel.upto 21)) (DfaModel.upto 737) = true.
Proof. vm_compute. reflexivity. Qed.
Lemma stage3_deep : forallb (fun s => if is_stage3 (MorfProofs.exit_of s) then N.leb 6 (depth s) else true) (DfaModel.upto 737) = true.
Proof. vm_compute. reflexivity. Qed.
Lemma depth_step s t y : (s < 737)%N -> (t < 21)%N -> MorfProofs.nx s t = Some y -> (depth y <= depth s + 1)%N.
Proof.
  intros S T E. pose proof (MorfProofs.by_upto _ _ (MorfProofs.by_upto _ _ depths_checked s S) t T) as H. cbv beta in H.
  rewrite E in H. apply N.leb_le in H. exact H.
Qed.
Import MorfModel MorfProofs MorfProofs2.
Lemma trun_depth l : forall st st', trun st l = Some st' -> (ts_m st < 737)%N -> Forall (fun x => (snd x < 21)%N) l ->
  (ts_m st' < 737)%N /\ (depth (ts_m st') <= depth (ts_m st) + N.of_nat (List.length l))%N.
Proof.
  induction l as [|(p & t) l IH]; intros st st' E B F; cbn [trun] in E.
  - injection E as <-. cbn [List.length]. split; [exact B | lia].
  - inversion F as [|? ? T F']; subst. cbn [snd] in T. destruct (tstep st (p, t)) as [s1|] eqn:S; [| discriminate].
    unfold tstep in S. destruct (nx (ts_m st) t) as [y|] eqn:X; [| discriminate]. injection S as <-.
    destruct (nx_ok _ t B T) as (_ & Y). specialize (Y y X).
    destruct (IH _ _ E Y F') as (A & D). cbn [ts_m] in *. split; [exact A |].
    pose proof (depth_step _ _ _ B T X). cbn [List.length]. lia.
Qed.
Lemma feasible_lt l : forall h, feasible h l -> forall t, In t l -> (exists a b, l = a ++ 0%N :: b /\ In t b) \/ (t < 21)%N.
Proof.
  induction l as [|x l IH]; intros h F t I; [destruct I |]. cbn [feasible] in F. destruct F as (A & B). destruct I as [<-|I]; [auto |].
  destruct (N.eq_dec x 0) as [->|N].
  - left. exists [], l. auto.
  - destruct (B N) as (_ & _ & C). destruct (IH _ C t I) as [(a & b & -> & J)|J]; [left; exists (x :: a), b; auto | auto].
Qed.
Lemma trun_feasible l : forall st st' h, trun st l = Some st' -> (ts_m st < 737)%N -> feasible h (map snd l) -> Forall (fun x => (snd x < 21)%N) l.
Proof.
  induction l as [|(p & t) l IH]; intros st st' h E B F; [constructor |]. cbn [map snd feasible] in F. destruct F as (T & F).
  cbn [trun] in E. destruct (tstep st (p, t)) as [s1|] eqn:S; [| discriminate]. constructor; [exact T |].
  unfold tstep in S. destruct (nx (ts_m st) t) as [y|] eqn:X; [| discriminate]. injection S as <-.
  assert (t <> 0%N) as N by (intros ->; rewrite (nx_unk _ B) in X; discriminate). destruct (F N) as (_ & _ & F').
  eapply IH; [exact E | cbn [ts_m]; exact (proj2 (nx_ok _ t B T) y X) | exact F'].
Qed.
Local Open Scope nat_scope.
Lemma letters_len w : forall p, List.length (letters p w) <= List.length w.
Proof. induction w as [|c w IH]; intro p; cbn [letters]; [auto |]. destruct (Ascii.eqb c ","); cbn [List.length]; [specialize (IH (S p)); lia | specialize (IH (S p)); lia]. Qed.
Lemma ptoks_len l : forall f, List.length (ptoks f l) = List.length l.
Proof. induction l as [|(p & c) l IH]; intro f; cbn; [reflexivity | rewrite IH; reflexivity]. Qed.
Lemma short_no_stage3 cult w h : String.length w <= 5 -> TransModel.kind cult w <> Ok (K_FUIVLA3 h).
Proof.
  intros L. unfold TransModel.kind. rewrite scan_ok. destruct (trun t_init (toks_of (list_ascii_of_string w))) as [st|] eqn:T; [| discriminate].
  assert (is_stage3 (morf_exitval (ts_m st)) = false) as N.
  { assert (Forall (fun x => (snd x < 21)%N) (toks_of (list_ascii_of_string w))) as F.
    { eapply trun_feasible; [exact T | exact zero_state |]. apply (ptoks_feasible _ f_init finv_init). apply letters_no_comma. }
    destruct (trun_depth _ _ _ T zero_state F) as (B & D).
    rewrite (exit_ok _ B). pose proof (by_upto _ _ stage3_deep _ B) as S. cbv beta in S.
    destruct (is_stage3 (exit_of (ts_m st))); [| reflexivity]. apply N.leb_le in S. exfalso.
    change (depth (ts_m t_init)) with 0%N in D.
    unfold toks_of in D. rewrite ptoks_len in D. pose proof (letters_len (list_ascii_of_string w) 0) as Q. rewrite slen in Q. lia. }
  unfold is_stage3 in N. unfold morf_end. cbn [m_state conc].
  destruct (category (morf_exitval (ts_m st))) as (r & d). destruct r; try discriminate N; cbn [obind sc_type];
    try (destruct (m_upper _); discriminate); try discriminate.
  - destruct (m_upper _); [| destruct cult]; discriminate.
  - destruct (is_bad_cmene _); cbn [obind]; discriminate.
Qed.
