From Coq Require Import String Ascii List NArith ZArith Bool Arith Sorted Permutation Lia.
From Verif Require Import Base DictModel DictSpec DictProofs DictProofs2.
Import ListNotations.
Open Scope string_scope.
Open Scope list_scope.

(* ---------- a line ---------- *)
Lemma skip_spaces sp l : Forall (fun a => isspace a = true) sp ->
  skip_space (sp ++ l) = skip_space l.
Proof. induction 1 as [|a sp H F IH]; cbn; [reflexivity |]. rewrite H. exact IH. Qed.
Lemma upto_colon_spec k r : ~ In colon k -> (r = [] \/ exists r', r = colon :: r') -> upto_colon (k ++ r) = (k, r).
Proof.
  intros N E. induction k as [|a k IH]; cbn [app upto_colon].
  - destruct E as [->|(r' & ->)]; reflexivity.
  - destruct (Ascii.eqb_spec a ":") as [->|D]; [exfalso; apply N; left; reflexivity |].
    rewrite IH; [reflexivity |]. intro I. apply N. right. exact I.
Qed.
Lemma upto_colon_none l : ~ In colon l -> upto_colon l = (l, []).
Proof. intro N. rewrite <- (app_nil_r l) at 1. apply upto_colon_spec; auto. Qed.
Lemma skip_incl l a : In a (skip_space l) -> In a l.
Proof. induction l as [|b l IH]; cbn; [tauto |]. destruct (isspace b); cbn; auto. Qed.
Lemma mark_test a : (Ascii.eqb a "#" || Ascii.eqb a "!" || Ascii.eqb a ";")%bool = true <-> comment_mark a.
Proof.
  unfold comment_mark. destruct (Ascii.eqb_spec a "#"), (Ascii.eqb_spec a "!"), (Ascii.eqb_spec a ";"); cbn; intuition congruence.
Qed.
Lemma mark_not_space a : comment_mark a -> isspace a = false.
Proof. intros [-> | [-> | ->]]; reflexivity. Qed.

Lemma do_line_says canon l m : says l m ->
  do_line canon (l ++ [newline]) = match m with None => Ok [] | Some (k, v) => handle_mapping canon k v end.
Proof.
  intro H. unfold do_line, chop. rewrite removelast_last. destruct H as [l F|sp a l F M|l N|sp k v rest F K Nk Nv R].
  - rewrite <- (app_nil_r l), skip_spaces by exact F. reflexivity.
  - rewrite skip_spaces by exact F. cbn [skip_space]. rewrite (mark_not_space a M).
    rewrite (proj2 (mark_test a) M). reflexivity.
  - destruct (skip_space l) as [|b p] eqn:E; [reflexivity |]. destruct (_ || _)%bool; [reflexivity |].
    rewrite upto_colon_none; [reflexivity |]. intro I. apply N. apply skip_incl. rewrite E. exact I.
  - rewrite skip_spaces by exact F.
    assert (E : skip_space (k ++ colon :: v ++ rest) = k ++ colon :: v ++ rest).
    { destruct k as [|a k]; [reflexivity |]. cbn. destruct (K a k eq_refl) as (-> & _). reflexivity. }
    rewrite E. destruct (k ++ colon :: v ++ rest) as [|b p] eqn:P; [destruct k; discriminate |].
    replace (Ascii.eqb b "#" || Ascii.eqb b "!" || Ascii.eqb b ";")%bool with false.
    + rewrite <- P. rewrite upto_colon_spec by (auto; right; eauto). rewrite upto_colon_spec by assumption. reflexivity.
    + symmetry. apply not_true_iff_false. rewrite mark_test. destruct k as [|a k]; cbn in P; injection P as <- _.
      * intros [X|[X|X]]; discriminate X.
      * apply (K a k eq_refl).
Qed.

Lemma fgets_line l f : ~ In newline l -> forall n, List.length l < n -> fgets n (l ++ newline :: f) = (l ++ [newline], f).
Proof.
  induction l as [|a l IH]; intros N n L; destruct n as [|n]; cbn in L; try lia; cbn [app fgets].
  - rewrite Ascii.eqb_refl. reflexivity.
  - destruct (Ascii.eqb_spec a newline) as [->|D]; [exfalso; apply N; left; reflexivity |].
    rewrite IH; [reflexivity | intro I; apply N; right; exact I | lia].
Qed.

(* a step for every line *)
Fixpoint each_line (canon : string -> option string) (ms : list (option (string * string))) : outcome (list action) :=
  match ms with
  | [] => Ok []
  | m :: ms =>
      do a <- match m with None => Ok [] | Some (k, v) => handle_mapping canon k v end;
      do r <- each_line canon ms; Ok (a ++ r)
  end.
Lemma do_lines_text canon ls ms : Forall short_line ls -> Forall2 says ls ms ->
  forall fuel, List.length (text ls) < fuel -> do_lines fuel canon (text ls) = each_line canon ms.
Proof.
  intros S H. revert S. induction H as [|l m ls ms A F IH]; intros S fuel L; (destruct fuel as [|fuel]; [lia |]); [reflexivity |].
  inversion S as [|? ? (N & Ln) S']; subst.
  assert (T : text (l :: ls) = l ++ newline :: text ls) by (unfold text; cbn; rewrite <- app_assoc; reflexivity).
  rewrite T in *. cbn [do_lines each_line].
  destruct (l ++ newline :: text ls) as [|b r] eqn:E; [destruct l; discriminate |]. rewrite <- E in *. clear b r E.
  rewrite fgets_line by (exact N || (unfold LINE; lia)).
  rewrite (do_line_says canon l m A). rewrite IH; [reflexivity | exact S' |].
  rewrite app_length in L. cbn in L. lia.
Qed.
Lemma each_line_app canon a : forall b, each_line canon (a ++ b) =
  do x <- each_line canon a; do y <- each_line canon b; Ok (x ++ y).
Proof.
  induction a as [|m a IH]; intro b; cbn [app each_line obind].
  - destruct (each_line canon b); reflexivity.
  - rewrite IH. destruct (match m with None => Ok [] | Some (k, v) => handle_mapping canon k v end) as [x| | | |]; cbn [obind]; try reflexivity.
    destruct (each_line canon a) as [y| | | |]; cbn [obind]; try reflexivity.
    destruct (each_line canon b) as [z| | | |]; cbn [obind]; try reflexivity. rewrite app_assoc. reflexivity.
Qed.
Lemma do_files_text canon fs mss : Forall (Forall short_line) fs -> Forall2 (Forall2 says) fs mss ->
  do_files canon (map (fun ls => Some (text ls)) fs) = each_line canon (concat mss).
Proof.
  intros S H. revert S. induction H as [|ls ms fs mss A F IH]; intro S; [reflexivity |].
  inversion S; subst. cbn [map do_files concat]. rewrite each_line_app. unfold do_file.
  rewrite (do_lines_text canon ls ms) by (assumption || lia). rewrite IH by assumption. reflexivity.
Qed.

(* ---------- what is learnt ---------- *)
Lemma last_char_snoc p c : last_char (p ++ String c "") = Some c.
Proof.
  induction p as [|a p IH]; [reflexivity |]. cbn [append last_char]. destruct (p ++ String c "")%string eqn:E; [destruct p; discriminate | exact IH].
Qed.
Lemma alphas_stem k s : stem k s -> alphas k = s.
Proof.
  intros (r & -> & F & R). induction s as [|a s IH]; cbn [append alphas chars list_ascii_of_string] in *.
  - destruct r as [|b r]; cbn; [reflexivity |]. rewrite R. reflexivity.
  - inversion F; subst. rewrite H1. f_equal. apply IH. assumption.
Qed.
Lemma stem_alphas k : stem k (alphas k).
Proof.
  induction k as [|a k IH].
  - exists "". cbn. auto.
  - cbn. destruct (isalpha a) eqn:A.
    + destruct IH as (r & E & F & R). exists r. split; [cbn; f_equal; exact E |]. split; [constructor; assumption | exact R].
    + exists (String a k). cbn. auto.
Qed.

Lemma happens_ext l : forall d e : dict, (forall q, d q = e q) -> forall q, fold_left happens l d q = fold_left happens l e q.
Proof.
  induction l as [|a l IH]; intros d e E q; cbn; [apply E |]. apply IH. intro x. destruct a; cbn; unfold put;
    destruct (String.eqb x k); auto.
Qed.

Lemma alphas_head a s : 6 <= String.length (alphas (String a s)) -> isalpha a = true.
Proof. cbn. destruct (isalpha a); [reflexivity | cbn; lia]. Qed.
Lemma learn_mapping canon k v d d' : k <> "" -> learns canon k v d d' ->
  exists acts, handle_mapping canon k v = Ok acts /\ fold_left happens acts d = d'.
Proof.
  intros NE H. unfold handle_mapping.
  assert (L : exists c, last_char k = Some c).
  { clear - NE. destruct k as [|a k]; [congruence |]. clear NE. revert a. induction k as [|b k IH]; intro a; [exists a; reflexivity |].
    destruct (IH b) as (c & E). exists c. cbn [last_char] in *. exact E. }
  destruct L as (c & L). destruct H as [Hd|s Hd Hs Hc|s cn p c' Hd Hs Hl Hc Ek]; unfold ends_in_digit in Hd; rewrite L in *; rewrite Hd.
  - eexists. split; [reflexivity |]. destruct k as [|a k]; [congruence |]. rewrite andb_false_r. reflexivity.
  - eexists. split; [reflexivity |]. apply alphas_stem in Hs. destruct k as [|a k]; [congruence |]. rewrite andb_true_r, Hs.
    assert (E : (if (isalpha a && Nat.leb 6 (String.length s))%bool
                 then match canon s with Some cn => preen (cn ++ String c "") ++ [Define (cn ++ String c "") ("@" ++ String a k)] | None => [] end
                 else []) = []).
    { destruct (isalpha a); [| reflexivity]. cbn [andb]. destruct (Nat.leb_spec 6 (String.length s)); [| reflexivity].
      destruct Hc as [Hc|Hc]; [lia |]. rewrite Hc. reflexivity. }
    cbv zeta. rewrite E. reflexivity.
  - eexists. split; [reflexivity |]. apply alphas_stem in Hs. assert (c' = c) as ->.
    { rewrite Ek, last_char_snoc in L. congruence. }
    destruct k as [|a k]; [congruence |].
    rewrite Hs. rewrite <- Hs in Hl. rewrite (alphas_head a k Hl). rewrite Hs in Hl. rewrite (proj2 (Nat.leb_le _ _) Hl). cbn [andb].
    rewrite Hc. reflexivity.
Qed.
Lemma learns_ext canon k v d d' : k <> "" -> learns canon k v d d' -> forall e, (forall q, e q = d q) ->
  exists acts, handle_mapping canon k v = Ok acts /\ forall q, fold_left happens acts e q = d' q.
Proof.
  intros NE H e X. destruct (learn_mapping canon k v d d' NE H) as (acts & E & F). exists acts. split; [exact E |].
  intro q. rewrite <- F. apply happens_ext, X.
Qed.
Lemma learns_all_lines canon ms d d' : (forall k v, In (Some (k, v)) ms -> k <> "") -> learns_all canon ms d d' ->
  forall e, (forall q, e q = d q) -> exists acts, each_line canon ms = Ok acts /\ forall q, fold_left happens acts e q = d' q.
Proof.
  intros NE H. revert NE. induction H as [d|ms d d' H IH|k v ms d d1 d2 H1 H2 IH]; intros NE e X.
  - exists []. auto.
  - destruct (IH (fun k v I => NE k v (or_intror I)) e X) as (acts & E & F). exists acts. cbn [each_line]. rewrite E. auto.
  - destruct (learns_ext canon k v d d1 (NE k v (or_introl eq_refl)) H1 e X) as (a & E & F).
    destruct (IH (fun k v I => NE k v (or_intror I)) (fold_left happens a e) F) as (b & E' & F').
    exists (a ++ b). cbn [each_line]. rewrite E, E'. cbn [obind]. split; [reflexivity |]. intro q. rewrite fold_left_app. apply F'.
Qed.

Lemma learns_total canon k v d : k <> "" -> exists d', learns canon k v d d'.
Proof.
  intro NE. destruct (ends_in_digit k) eqn:D; [| eexists; apply learn_plain; exact D].
  destruct (Nat.lt_ge_cases (String.length (alphas k)) 6) as [L|L].
  - eexists. eapply learn_place; [exact D | apply stem_alphas | left; exact L].
  - destruct (canon (alphas k)) as [cn|] eqn:C.
    + assert (P : exists p c, k = (p ++ String c "")%string).
      { clear - NE. destruct k as [|a k]; [congruence |]. clear NE. revert a. induction k as [|b k IH]; intro a.
        - exists "", a. reflexivity.
        - destruct (IH b) as (p & c & ->). exists (String a p), c. reflexivity. }
      destruct P as (p & c & P). eexists. eapply learn_compound; [exact D | apply stem_alphas | exact L | exact C | exact P].
    + eexists. eapply learn_place; [exact D | apply stem_alphas | right; exact C].
Qed.

Lemma says_total l : exists m, says l m.
Proof.
  destruct (in_dec ascii_dec colon l) as [I|N]; [| exists None; apply says_no_colon; exact N].
  (* spaces, then the rest *)
  assert (Sp : exists sp r, l = sp ++ r /\ Forall (fun a => isspace a = true) sp /\ match r with [] => True | a :: _ => isspace a = false end).
  { clear. induction l as [|a l IH]; [exists [], []; auto |]. destruct (isspace a) eqn:A.
    - destruct IH as (sp & r & -> & F & R). exists (a :: sp), r. auto.
    - exists [], (a :: l). auto. }
  destruct Sp as (sp & r & -> & F & R). destruct r as [|a r]; [exists None; rewrite app_nil_r; apply says_blank; exact F |].
  destruct (Ascii.eqb a "#" || Ascii.eqb a "!" || Ascii.eqb a ";")%bool eqn:M.
  - exists None. apply says_comment; [exact F | apply mark_test, M].
  - assert (Ic : In colon (a :: r)).
    { apply in_app_or in I. destruct I as [I|I]; [| exact I]. rewrite Forall_forall in F. apply F in I. discriminate. }
    assert (Cut : forall x, exists k t, x = k ++ t /\ ~ In colon k /\ (t = [] \/ exists t', t = colon :: t')).
    { clear. induction x as [|b x IH]; [exists [], []; auto |]. destruct (ascii_dec b colon) as [->|N].
      - exists [], (colon :: x). split; [reflexivity |]. split; [intros [] | right; eauto].
      - destruct IH as (k & t & -> & Nk & T). exists (b :: k), t. split; [reflexivity |]. split; [| exact T].
        intros [E|E]; [congruence | auto]. }
    destruct (Cut (a :: r)) as (k & t & E & Nk & [->|(t' & ->)]).
    + exfalso. rewrite app_nil_r in E. rewrite E in Ic. auto.
    + destruct (Cut t') as (v & rest & -> & Nv & Rest). rewrite E. eexists. apply says_entry; try assumption.
      intros b k' ->. cbn in E. injection E as <- _. split; [exact R |]. intro C. apply mark_test in C. congruence.
Qed.

(* ---------- the whole program ---------- *)
Lemma meaning_defs d k : StronglySorted (fun a b => before (fst a) (fst b)) d ->
  meaning (map (fun e => Define (fst e) (snd e)) d) k = assoc d k.
Proof.
  unfold meaning. intro S.
  assert (G : forall n : dict, (forall e, In e d -> n (fst e) = None) ->
    fold_left happens (map (fun e => Define (fst e) (snd e)) d) n k = match assoc d k with Some v => Some v | None => n k end).
  { induction S as [|(k' & v') d S IH F]; intros n N; cbn [map fold_left assoc fst snd]; [reflexivity |].
    rewrite IH.
    - cbn. unfold put. destruct (String.eqb_spec k k') as [->|D]; [| reflexivity].
      rewrite assoc_none; [reflexivity |]. intro I. apply in_map_iff in I. destruct I as (e & E & I).
      rewrite Forall_forall in F. specialize (F e I). cbn in F. rewrite E in F. exact (before_irrefl _ F).
    - intros e I. cbn. unfold put. destruct (String.eqb_spec (fst e) k') as [E|D].
      + rewrite Forall_forall in F. specialize (F e I). cbn in F. rewrite E in F. exfalso. exact (before_irrefl _ F).
      + apply N. right. exact I. }
  rewrite G; [destruct (assoc d k); reflexivity | reflexivity].
Qed.

Lemma program canon old d0 fs mss d' :
  match old with
  | None => d0 = []
  | Some f => storable_dict d0 /\ StronglySorted (fun a b => before (fst a) (fst b)) d0 /\ f = write_bytes d0
  end ->
  Forall (Forall short_line) fs -> Forall2 (Forall2 says) fs mss ->
  (forall k v, In (Some (k, v)) (concat mss) -> k <> "") ->
  learns_all canon (concat mss) (assoc d0) d' ->
  exists d, smujajgau canon old (map (fun ls => Some (text ls)) fs) = write_database d /\
    StronglySorted (fun a b => before (fst a) (fst b)) d /\ forall k, assoc d k = d' k.
Proof.
  intros Old S F NE L. unfold smujajgau.
  assert (A : exists a, (match old with None => Ok [] | Some f => read_database f end) = Ok a /\ forall q, meaning a q = assoc d0 q).
  { destruct old as [f|].
    - destruct Old as (St & So & ->). exists (map (fun e => Define (fst e) (snd e)) d0). split; [apply reread, St |].
      intro q. apply meaning_defs, So.
    - subst. exists []. auto. }
  destruct A as (a & -> & M). cbn [obind]. rewrite (do_files_text canon fs mss S F).
  destruct (learns_all_lines canon _ _ _ NE L (meaning a) M) as (b & -> & B). cbn [obind].
  destruct (compile_spec (a ++ b)) as (d & Ed & Sd & Kd). exists d. rewrite Ed. split; [reflexivity |]. split; [exact Sd |].
  intro k. rewrite Kd. unfold meaning at 1. rewrite fold_left_app. apply B.
Qed.

Lemma write_size d : 4 * List.length d <= List.length (write_bytes d).
Proof.
  unfold write_bytes, put_long. rewrite !app_length, map_length. cbn [List.length].
  induction d as [|e d IH]; cbn [flat_map List.length]; [lia |]. rewrite !app_length. unfold head_bytes at 1, body_bytes at 1.
  repeat (rewrite app_length; cbn [List.length]). cbn [List.length]. lia.
Qed.
Lemma program_lookup canon old d0 fs mss d' f :
  match old with
  | None => d0 = []
  | Some f => storable_dict d0 /\ StronglySorted (fun a b => before (fst a) (fst b)) d0 /\ f = write_bytes d0
  end ->
  Forall (Forall short_line) fs -> Forall2 (Forall2 says) fs mss ->
  (forall k v, In (Some (k, v)) (concat mss) -> k <> "") ->
  learns_all canon (concat mss) (assoc d0) d' ->
  (forall k v, d' k = Some v -> no_nul k /\ no_nul v) ->
  smujajgau canon old (map (fun ls => Some (text ls)) fs) = Ok f -> (N.of_nat (List.length f) <= 2 ^ 32)%N ->
  forall k, dict_lookup (load f) k = Ok (d' k).
Proof.
  intros Old S F NE L NN E Sz k. destruct (program canon old d0 fs mss d' Old S F NE L) as (d & E' & Sd & Kd).
  rewrite E' in E. unfold write_database in E. destruct (existsb _ d) eqn:X; [discriminate |]. injection E as <-.
  rewrite lookup_ok; [rewrite Kd; reflexivity | | exact Sd]. split.
  - apply Forall_forall. intros (kk & vv) I. cbn [fst snd].
    destruct (NN kk vv) as (N1 & N2); [rewrite <- Kd; apply assoc_in; assumption |].
    assert (Y : ((256 <=? strlen kk) || (256 <=? strlen vv))%N = false).
    { apply not_true_iff_false. intro T. assert (existsb (fun e : string * string => ((256 <=? strlen (fst e)) || (256 <=? strlen (snd e)))%N) d = true).
      { apply existsb_exists. exists (kk, vv). auto. } congruence. }
    apply orb_false_iff in Y. destruct Y as (Y1 & Y2). apply N.leb_gt in Y1, Y2. repeat split; assumption.
  - pose proof (write_size d). lia.
Qed.
