From Coq Require Import String Ascii List NArith ZArith Bool Arith Lia ListDec.
From Verif Require Import Base DictModel TransModel TransSpec TransProofs.
Import ListNotations.
Open Scope string_scope.
Open Scope list_scope.

Lemma all_ascii (P : ascii -> bool) : forallb P (map ascii_of_nat (seq 0 256)) = true -> forall c, P c = true.
Proof.
  intros H c. rewrite forallb_forall in H. apply H. apply in_map_iff. exists (nat_of_ascii c).
  split; [apply ascii_nat_embedding |]. apply in_seq. pose proof (nat_ascii_bounded c). lia.
Qed.
Lemma digit_not_alpha d : isdigit d = true -> isalpha d = false.
Proof.
  assert (implb (isdigit d) (negb (isalpha d)) = true) as H by (revert d; apply all_ascii; vm_compute; reflexivity).
  destruct (isdigit d), (isalpha d); cbn in H; congruence.
Qed.

Lemma redirection_good w d tail : Forall (fun a => isalpha a = true) (list_ascii_of_string w) -> isdigit d = true ->
  redirection (w ++ String d tail) = (w, Some (digit_value d)).
Proof.
  intros F D. induction w as [|c w IH]; cbn.
  - rewrite (digit_not_alpha d D), D. reflexivity.
  - cbn in F. inversion F; subst. rewrite H1. rewrite (IH H2). reflexivity.
Qed.
Lemma redirection_some r w p : redirection r = (w, Some p) ->
  exists d tail, r = (w ++ String d tail)%string /\ Forall (fun a => isalpha a = true) (list_ascii_of_string w) /\ isdigit d = true /\ p = digit_value d.
Proof.
  revert w p. induction r as [|c r IH]; intros w p; cbn; [discriminate |]. destruct (isalpha c) eqn:A.
  - destruct (redirection r) as (w' & [p'|]); intro E; inversion E; subst. destruct (IH w' p eq_refl) as (d & tail & -> & F & D & P).
    exists d, tail. cbn. auto.
  - destruct (isdigit c) eqn:D; intro E; inversion E; subst. exists c, r. cbn. auto.
Qed.

Section DICT.
  Variable dict : string -> option string.
  Variable canon : string -> outcome (option string).
  Variable kind : string -> outcome wkind.
  Notation adv := (adv_translate dict canon kind).
  Definition run (f : nat) (s : state) : outcome string := let '(w, p, c) := s in adv f w p c.

  (* what the entry found says *)
  Definition by_entry (rec : state -> outcome string) (s : state) (t : string) : outcome string :=
    match t with
    | String "@" r => match redirection r with (w', Some p) => rec (w', p, snd (asked s)) | (_, None) => Ok "??" end
    | _ => do r <- fix_trans_in_context t (snd (asked s))
                     (match dict (fst (fst (asked s)) ++ zdec (snd (fst (asked s))) ++ "n")%string with Some x => x | None => "" end);
           match r with Some r => Ok r | None => UB UB_null end
    end.
  Lemma run_entry f s t : entry_for dict s = Some t -> run (S f) s = by_entry (run f) s t.
  Proof.
    destruct s as ((w & p) & c). unfold entry_for, by_entry, run. cbn [adv_translate adv_body asked].
    unfold adv_body. destruct (p =? 0)%Z; cbn [fst snd]; rewrite !sapp_assoc; intros ->; reflexivity.
  Qed.

  Lemma hop_run f s s' : hop dict s s' -> run (S f) s = run f s'.
  Proof.
    intros (w & d & tail & E & F & D & ->). rewrite (run_entry _ _ _ E). cbn [by_entry String.append].
    rewrite (redirection_good w d tail F D). reflexivity.
  Qed.
  Lemma hops_run n s s' : hops dict n s s' -> forall f, run (n + f) s = run f s'.
  Proof. induction 1 as [|n s s' s'' H _ IH]; intro f; [reflexivity |]. cbn [Nat.add]. rewrite (hop_run _ _ _ H). apply IH. Qed.
  Lemma run_0 s : run 0 s = NoFuel. Proof. destruct s as ((w & p) & c). reflexivity. Qed.
  Lemma hops_short n s s' : hops dict n s s' -> forall f, f <= n -> run f s = NoFuel.
  Proof.
    induction 1 as [|n s s' s'' H _ IH]; intros f L; [replace f with 0 by lia; apply run_0 |].
    destruct f as [|f]; [apply run_0 |]. rewrite (hop_run _ _ _ H). apply IH. lia.
  Qed.
  Lemma cycle_run m s : hops dict (S m) s s -> forall f, run f s = NoFuel.
  Proof.
    intros H f. induction f as [f IH] using lt_wf_ind. destruct (le_lt_dec f (S m)) as [L|L]; [eapply hops_short; eauto |].
    replace f with (S m + (f - S m)) by lia. rewrite (hops_run _ _ _ H). apply IH. lia.
  Qed.
  Lemma cyclic_run s : cyclic dict s -> forall f, run f s = NoFuel.
  Proof.
    intros (n & m & s' & H & C) f. destruct (le_lt_dec f n) as [L|L]; [eapply hops_short; eauto |].
    replace f with (n + (f - n)) by lia. rewrite (hops_run _ _ _ H). eapply cycle_run; eauto.
  Qed.

  (* one hop at most *)
  Definition next (s : state) : option state :=
    match entry_for dict s with
    | Some (String "@" r) => match redirection r with (w, Some p) => Some (w, p, snd (asked s)) | _ => None end
    | _ => None
    end.
  Lemma hop_next s s' : hop dict s s' <-> next s = Some s'.
  Proof.
    unfold next. split.
    - intros (w & d & tail & E & F & D & ->). rewrite E. cbn [String.append]. rewrite (redirection_good w d tail F D). reflexivity.
    - destruct (entry_for dict s) as [t|] eqn:E; [| discriminate].
      destruct t as [|c r]; [discriminate |]. destruct (ascii_dec c "@") as [->|N].
      + destruct (redirection r) as (w & [p|]) eqn:R; [| discriminate]. intro Q. injection Q as <-.
        destruct (redirection_some r w p R) as (d & tail & -> & F & D & ->). exists w, d, tail. auto.
      + intro Q. exfalso. destruct c as [[] [] [] [] [] [] [] []]; try discriminate Q. apply N. reflexivity.
  Qed.
  Lemma hop_fun s a b : hop dict s a -> hop dict s b -> a = b.
  Proof. rewrite !hop_next. congruence. Qed.
  Lemma hops_app n m a b c : hops dict n a b -> hops dict m b c -> hops dict (n + m) a c.
  Proof. induction 1; [auto |]. intro H1. econstructor; eauto. Qed.
  Lemma hops_split n s s' : hops dict n s s' -> forall k, k <= n -> exists t, hops dict k s t /\ hops dict (n - k) t s'.
  Proof.
    induction 1 as [s|n s s' s'' H R IH]; intros k L; [replace k with 0 by lia; exists s; split; constructor |].
    destruct k as [|k]; [exists s; split; [constructor | econstructor; eauto] |].
    destruct (IH k) as (t & A & B); [lia |]. exists t. split; [econstructor; eauto | exact B].
  Qed.
  Lemma hops_fun n s a : hops dict n s a -> forall b, hops dict n s b -> a = b.
  Proof.
    induction 1 as [s|n s s' s'' H R IH]; intros b B; inversion B; subst; [reflexivity |].
    assert (s' = s'0) as <- by (eapply hop_fun; eauto). auto.
  Qed.

  (* a chain that ends is not a loop *)
  Lemma end_not_cyclic n s s' : hops dict n s s' -> (forall t, ~ hop dict s' t) -> ~ cyclic dict s.
  Proof.
    intros H E (k & m & t & A & C).
    assert (L : forall j, exists i, j <= i /\ hops dict i s t).
    { induction j as [|j (i & J & B)]; [exists k; split; [lia | exact A] |]. exists (i + S m). split; [lia |]. eapply hops_app; eauto. }
    destruct (L (S n)) as (i & J & B). destruct (hops_split _ _ _ B n) as (u & U & V); [lia |].
    assert (u = s') as -> by (eapply hops_fun; eauto). inversion V; subst; [lia |]. eapply E; eauto.
  Qed.

  (* finite dictionaries *)
  Variable L : list string.
  Hypothesis finite : forall k v, dict k = Some v -> In k L.
  Definition used (s : state) : string * tctx :=
    let '(w, p, c) := asked s in
    (match dict (w ++ zdec p ++ ctx_letter c)%string with Some _ => w ++ zdec p ++ ctx_letter c | None => w ++ zdec p end%string, c).
  Lemma tctx_dec (a b : tctx) : {a = b} + {a <> b}. Proof. decide equality. Defined.
  Lemma used_dec (a b : string * tctx) : {a = b} + {a <> b}.
  Proof. decide equality; [apply tctx_dec | apply string_dec]. Defined.
  Lemma used_next s t : used s = used t -> next s = next t.
  Proof.
    unfold used, next, entry_for. destruct (asked s) as ((w & p) & c), (asked t) as ((w' & p') & c'). cbn [snd].
    intro E. injection E as K <-.
    assert (match dict (w ++ zdec p ++ ctx_letter c) with Some x => Some x | None => dict (w ++ zdec p)%string end =
            match dict (w' ++ zdec p' ++ ctx_letter c) with Some x => Some x | None => dict (w' ++ zdec p')%string end) as ->; [| reflexivity].
    destruct (dict (w ++ zdec p ++ ctx_letter c)) eqn:A, (dict (w' ++ zdec p' ++ ctx_letter c)) eqn:B; rewrite K in *; congruence.
  Qed.
  Lemma used_in s s' : hop dict s s' -> In (fst (used s)) L.
  Proof.
    intros (w & d & tail & E & _). unfold entry_for in E. unfold used. destruct (asked s) as ((w' & p) & c). cbn [fst].
    destruct (dict (w' ++ zdec p ++ ctx_letter c)) eqn:A; eapply finite; eauto.
  Qed.
  Lemma used_ctx s : snd (used s) = snd (asked s).
  Proof. unfold used. destruct (asked s) as ((w & p) & c). reflexivity. Qed.
  Lemma asked_ctx s : snd (asked s) = snd s \/ snd (asked s) = TCX_VERB.
  Proof. destruct s as ((w & p) & c). cbn. destruct (p =? 0)%Z; cbn; auto. Qed.
  Lemma hop_ctx s s' : hop dict s s' -> snd s' = snd (asked s).
  Proof. intros (w & d & tail & _ & _ & _ & ->). reflexivity. Qed.

  (* the states passed through *)
  Inductive path : list state -> state -> state -> Prop :=
  | pa_none s : path [] s s
  | pa_one l s s' s'' : hop dict s s' -> path l s' s'' -> path (s :: l) s s''.
  Lemma path_hops l s s' : path l s s' -> hops dict (List.length l) s s'.
  Proof. induction 1; cbn; econstructor; eauto. Qed.
  Lemma walk n s : (exists k s', k <= n /\ hops dict k s s' /\ forall t, ~ hop dict s' t) \/ (exists l s', List.length l = S n /\ path l s s').
  Proof.
    revert s. induction n as [|n IH]; intro s; destruct (next s) as [t|] eqn:N.
    - right. exists [s], t. split; [reflexivity |]. econstructor; [apply hop_next; exact N | constructor].
    - left. exists 0, s. split; [lia |]. split; [constructor |]. intros t H. apply hop_next in H. congruence.
    - destruct (IH t) as [(k & s' & K & H & E)|(l & s' & E & P)].
      + left. exists (S k), s'. split; [lia |]. split; [| exact E]. econstructor; [apply hop_next; exact N | exact H].
      + right. exists (s :: l), s'. cbn. split; [lia |]. econstructor; [apply hop_next; exact N | exact P].
    - left. exists 0, s. split; [lia |]. split; [constructor |]. intros t H. apply hop_next in H. congruence.
  Qed.
  Lemma path_split l1 l2 s s' : path (l1 ++ l2) s s' -> exists t, path l1 s t /\ path l2 t s'.
  Proof.
    revert s. induction l1 as [|a l1 IH]; cbn; intros s P; [exists s; split; [constructor | exact P] |].
    inversion P as [|? ? u ? Hu Pu]; subst. destruct (IH _ Pu) as (t & A & B). exists t. split; [econstructor; eauto | exact B].
  Qed.
  Lemma path_in l s s' : path l s s' -> forall c, snd s = c \/ snd s = TCX_VERB ->
    incl (map used l) (list_prod L [c; TCX_VERB]).
  Proof.
    induction 1 as [|l s s' s'' H P IH]; intros c C; [intros x [] |]. cbn [map]. intros x [<-|I].
    - destruct (used s) as (k & e) eqn:U. apply in_prod; [replace k with (fst (used s)) by (rewrite U; reflexivity); eapply used_in; eauto |].
      replace e with (snd (used s)) by (rewrite U; reflexivity). rewrite used_ctx. destruct (asked_ctx s) as [E| E]; rewrite E; [destruct C as [->| ->] |]; cbn; auto.
    - revert x I. apply IH. rewrite (hop_ctx _ _ H). destruct (asked_ctx s) as [->| ->]; tauto.
  Qed.
  Lemma dup_split {A B} (g : A -> B) (l : list A) (dec : forall a b : B, {a = b} + {a <> b}) : ~ NoDup (map g l) ->
    exists l1 a l2 b l3, l = l1 ++ a :: l2 ++ b :: l3 /\ g a = g b.
  Proof.
    induction l as [|x l IH]; cbn; intro N; [destruct N; constructor |].
    destruct (in_dec dec (g x) (map g l)) as [I|I].
    - apply in_map_iff in I. destruct I as (b & E & I). apply in_split in I. destruct I as (l2 & l3 & ->).
      exists [], x, l2, b, l3. auto.
    - destruct IH as (l1 & a & l2 & b & l3 & -> & E); [intro D; apply N; constructor; assumption |].
      exists (x :: l1), a, l2, b, l3. auto.
  Qed.
  Lemma ends_or_loops s : (exists n s', n <= 2 * List.length L /\ hops dict n s s' /\ forall t, ~ hop dict s' t) \/ cyclic dict s.
  Proof.
    destruct (walk (2 * List.length L) s) as [H|(l & s' & E & P)]; [left; exact H |]. right.
    assert (~ NoDup (map used l)) as N.
    { intro D. pose proof (NoDup_incl_length D (path_in _ _ _ P (snd s) (or_introl eq_refl))) as H.
      rewrite map_length, prod_length in H. cbn [List.length] in H. lia. }
    destruct (dup_split used l used_dec N) as (l1 & a & l2 & b & l3 & -> & U).
    apply path_split in P. destruct P as (t1 & P1 & P2). inversion P2 as [|? ? t2 ? Ha P3]; subst.
    apply path_split in P3. destruct P3 as (t3 & P3 & P4). inversion P4 as [|? ? t4 ? Hb P5]; subst.
    assert (t2 = t4) as <-.
    { apply hop_next in Ha, Hb. rewrite (used_next _ _ U) in Ha. congruence. }
    exists (List.length l1 + 1), (List.length l2), t2. split.
    - eapply hops_app; [apply path_hops; exact P1 |]. econstructor; [exact Ha | constructor].
    - replace (S (List.length l2)) with (List.length l2 + 1) by lia. eapply hops_app; [apply path_hops; exact P3 |].
      econstructor; [exact Hb | constructor].
  Qed.
End DICT.
