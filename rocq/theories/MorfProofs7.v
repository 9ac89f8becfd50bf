(* Commas and capitals. *)
From Coq Require Import String Ascii List NArith Bool Arith Lia.
From Verif Require Import Base Arr DfaModel DfaTables MorfModel LujvoSpec MorfSpec MorfProofs MorfProofs2 MorfProofs3 MorfProofs4 MorfProofs5 MorfProofs6.
Import ListNotations.
Open Scope N_scope.
Open Scope list_scope.

Lemma lower_same c :
  snd (mapchar (lower c)) = snd (mapchar c) /\ vmapchar (lower c) = vmapchar c /\ bc_mapchar (lower c) = bc_mapchar c
  /\ fst (mapchar c) = capital c /\ capital (lower c) = false /\ Ascii.eqb (lower c) "," = Ascii.eqb c ",".
Proof.
  pose proof (LujvoProofs.by_chars (fun c => if N.eqb (snd (mapchar (lower c))) (snd (mapchar c)) then
    if N.eqb (vmapchar (lower c)) (vmapchar c) then if N.eqb (bc_mapchar (lower c)) (bc_mapchar c) then
    if Bool.eqb (fst (mapchar c)) (capital c) then if capital (lower c) then false else Bool.eqb (Ascii.eqb (lower c) ",") (Ascii.eqb c ",")
    else false else false else false else false) ltac:(vm_compute; reflexivity) c) as H. cbv beta in H.
  destruct (N.eqb_spec (snd (mapchar (lower c))) (snd (mapchar c))) as [E1|]; [|discriminate].
  destruct (N.eqb_spec (vmapchar (lower c)) (vmapchar c)) as [E2|]; [|discriminate].
  destruct (N.eqb_spec (bc_mapchar (lower c)) (bc_mapchar c)) as [E3|]; [|discriminate].
  destruct (Bool.eqb (fst (mapchar c)) (capital c)) eqn:E4; [|discriminate]. apply Bool.eqb_prop in E4.
  destruct (capital (lower c)) eqn:E5; [discriminate|]. apply Bool.eqb_prop in H. auto 8.
Qed.
Lemma flook_lower f c : flook f (lower c) = flook f c.
Proof.
  destruct (lower_same c) as (E1 & E2 & _). unfold flook, letter_token. destruct f as [L Sv [[v1 v2] v3]]. cbn [f_v f_L f_S].
  rewrite E1, E2. reflexivity.
Qed.
Lemma ftok_lower f c : ftok f (lower c) = ftok f c.
Proof. unfold ftok. now rewrite flook_lower. Qed.
Lemma fgo_lower f c : fgo f (lower c) = fgo f c.
Proof.
  destruct (lower_same c) as (E1 & E2 & _). unfold fgo. rewrite flook_lower. unfold fnext. destruct (f_v f) as [[v1 v2] v3].
  rewrite E1, E2. reflexivity.
Qed.

(* tokens of a list of letters *)
Fixpoint tks (f : front) (l : list ascii) : list N := match l with [] => [] | c :: l => ftok f c :: tks (fgo f c) l end.
Lemma ptoks_tks l : forall f, ptoks f l = combine (map fst l) (tks f (map snd l)).
Proof. induction l as [|[p c] l IH]; intro f; [reflexivity|]. cbn [ptoks map fst snd tks combine]. now rewrite IH. Qed.
Lemma tks_lower l : forall f, tks f (map lower l) = tks f l.
Proof. induction l as [|c l IH]; intro f; [reflexivity|]. cbn [map tks]. now rewrite ftok_lower, fgo_lower, IH. Qed.
Lemma fend_snd l : forall l' f, map snd l = map snd l' -> fend f l = fend f l'.
Proof.
  induction l as [|[p c] l IH]; intros [|[p' c'] l'] f H; try discriminate; [reflexivity|].
  cbn in H. injection H as -> H. cbn [fend]. auto.
Qed.
Lemma tks_length l : forall f, length (tks f l) = length l.
Proof. induction l as [|c l IH]; intro f; [reflexivity|]. cbn. now rewrite IH. Qed.

Lemma letters_fst w : forall p, map fst (letters p w) = places p w.
Proof. induction w as [|c w IH]; intro p; [reflexivity|]. cbn [letters places]. unfold comma. destruct (Ascii.eqb c ","); cbn [map fst]; now rewrite IH. Qed.
Lemma letters_snd w : forall p, map snd (letters p w) = letters_of w.
Proof. induction w as [|c w IH]; intro p; [reflexivity|]. cbn [letters letters_of filter]. unfold comma. destruct (Ascii.eqb c ","); cbn [map snd negb]; rewrite IH; reflexivity. Qed.
Lemma places_plain w : forall p, Forall (fun c => Ascii.eqb c "," = false) w -> places p w = seq p (length w).
Proof.
  induction w as [|c w IH]; intros p H; [reflexivity|]. inversion H as [|? ? Hc Hw E]; subst. cbn [places List.length seq].
  unfold comma. rewrite Hc. now rewrite IH.
Qed.
Lemma plain_no_comma w : Forall (fun c => Ascii.eqb c "," = false) (plain w).
Proof.
  unfold plain. induction w as [|c w IH]; [constructor|]. cbn [letters_of filter]. unfold comma.
  destruct (Ascii.eqb c ",") eqn:E; cbn [negb]; [exact IH|]. cbn [map]. constructor; [|exact IH].
  destruct (lower_same c) as (_ & _ & _ & _ & _ & H). now rewrite H.
Qed.
Lemma letters_of_plain w : letters_of (plain w) = plain w.
Proof.
  pose proof (plain_no_comma w) as H. induction H as [|c l Hc H IH]; [reflexivity|]. cbn [letters_of filter].
  unfold comma. rewrite Hc. cbn [negb]. f_equal. exact IH.
Qed.
Lemma plain_plain w : plain (plain w) = plain w.
Proof.
  unfold plain at 1. rewrite letters_of_plain. unfold plain. rewrite map_map. apply map_ext. intro c.
  destruct (lower_same c) as (_ & _ & _ & _ & H & _). unfold lower at 1. now rewrite H.
Qed.
Lemma places_length w : forall p, length (places p w) = length (letters_of w).
Proof. induction w as [|c w IH]; intro p; [reflexivity|]. cbn [places letters_of filter]. unfold comma. destruct (Ascii.eqb c ","); cbn; rewrite ?IH; reflexivity. Qed.

Definition mp {A} (f : nat -> nat) (x : nat * A) : nat * A := (f (fst x), snd x).
Lemma map_nth_seq (l : list nat) : map (fun k => nth k l 0%nat) (seq 0 (length l)) = l.
Proof.
  induction l as [|a l IH]; [reflexivity|]. cbn [List.length seq map nth]. f_equal. rewrite <- seq_shift, map_map. exact IH.
Qed.
Lemma combine_map_l {A} (f : nat -> nat) (l : list nat) (r : list A) : combine (map f l) r = map (mp f) (combine l r).
Proof. revert r. induction l as [|a l IH]; intros [|b r]; try reflexivity. cbn [map combine]. now rewrite IH. Qed.
Lemma toks_plain w : toks_of w = map (mp (at_letter w)) (toks_of (plain w)).
Proof.
  unfold toks_of. rewrite !ptoks_tks, !letters_fst, !letters_snd, letters_of_plain.
  rewrite (places_plain _ 0 (plain_no_comma w)). unfold plain at 2. rewrite tks_lower.
  rewrite <- combine_map_l. f_equal. unfold plain. rewrite map_length, <- (places_length w 0).
  symmetry. apply map_nth_seq.
Qed.

(* the scanner under a renaming of positions *)
Definition tmap (f : nat -> nat) (st : tst) : tst :=
  TSt (ts_m st) (map f (ts_starts st)) (map f (ts_cy st)) (ts_inh st) (ts_ini st) (ts_last st)
    (option_map f (ts_p1 st)) (option_map f (ts_p2 st)) (option_map f (ts_h3 st)) (option_map f (ts_h4 st)).
Lemma trun_map f : forall l st, trun (tmap f st) (map (mp f) l) = option_map (tmap f) (trun st l).
Proof.
  induction l as [|[p t] l IH]; intro st; [reflexivity|]. cbn [map trun]. change (mp f (p, t)) with (f p, t). rewrite !tstep_after. cbn [tmap ts_m].
  destruct (nx (ts_m st) t) as [s|]; [|reflexivity]. rewrite <- IH. f_equal. unfold after, tmap.
  cbn [ts_m ts_starts ts_cy ts_inh ts_ini ts_last ts_p1 ts_p2 ts_h3 ts_h4].
  f_equal.
  - destruct ((tset t && negb (ts_inh st || tinh t)) || ts_ini st); reflexivity.
  - destruct (ts_last st), (tact t); reflexivity.
  - destruct (att (ts_m st) "AT_S3_3" "AT_XS3_3"); reflexivity.
  - destruct (att (ts_m st) "AT_S3_4" "AT_XS3_4"); reflexivity.
Qed.

Lemma ups_capital w : forall p, ups (letters p w) = existsb capital w.
Proof.
  unfold ups. induction w as [|c w IH]; intro p; [reflexivity|]. cbn [letters existsb].
  destruct (Ascii.eqb_spec c ",") as [->|H]; [rewrite IH; reflexivity|]. cbn [existsb snd]. rewrite IH.
  destruct (lower_same c) as (_ & _ & _ & E & _). now rewrite E.
Qed.
Lemma plain_no_capital w : existsb capital (plain w) = false.
Proof.
  unfold plain. induction (letters_of w) as [|c l IH]; [reflexivity|]. cbn [map existsb]. rewrite IH.
  destruct (lower_same c) as (_ & _ & _ & _ & E & _). now rewrite E.
Qed.

(* ---- the check of names ---- *)
Fixpoint bcl (l : list (nat * N)) (cs : N) (ns : option N) (ld : option nat) : outcome cmene_info :=
  match l with
  | [] =>
      match ns with
      | None => UB UB_uninit
      | Some ns => if String.eqb (bc_exitval ns) "BC_CMENE_OK" then Ok (CInfo false false None None)
                   else Ok (CInfo true false None None)
      end
  | (p, t) :: l =>
        do r <- next_state bc_tables (Some cs) t;
        match r with
        | None => UB UB_bounds
        | Some n =>
            if String.eqb (bc_exitval n) "BC_CMENE_BAD_NOSPLIT" then Ok (CInfo true false ld (Some p))
            else if String.eqb (bc_exitval n) "BC_CMENE_BAD_SPLIT" then Ok (CInfo true true ld (Some p))
            else bcl l n (Some n)
                   (if String.eqb (bc_attribute n) "ATTR_SEEN_LD" then Some p else ld)
        end
  end.
Definition btoks (l : list (nat * ascii)) : list (nat * N) := map (fun x => (fst x, bc_mapchar (snd x))) l.
Lemma bc_comma c : N.eqb (bc_mapchar c) 10 = Ascii.eqb c ",".
Proof.
  pose proof (LujvoProofs.by_chars (fun c => Bool.eqb (N.eqb (bc_mapchar c) 10) (Ascii.eqb c ",")) ltac:(vm_compute; reflexivity) c) as H.
  cbv beta in H. now apply Bool.eqb_prop in H.
Qed.
Lemma bc_loop_bcl w : forall p cs ns ld, bc_loop p w cs ns ld = bcl (btoks (letters p w)) cs ns ld.
Proof.
  induction w as [|c w IH]; intros p cs ns ld; [reflexivity|]. cbn [bc_loop letters]. rewrite bc_comma.
  destruct (Ascii.eqb c ","); [apply IH|]. cbn [btoks map bcl fst snd].
  destruct (next_state bc_tables (Some cs) (bc_mapchar c)) as [o| | | |]; try reflexivity. cbn [obind].
  destruct o as [n|]; [|reflexivity].
  destruct (String.eqb (bc_exitval n) "BC_CMENE_BAD_NOSPLIT"); [reflexivity|].
  destruct (String.eqb (bc_exitval n) "BC_CMENE_BAD_SPLIT"); [reflexivity|]. apply IH.
Qed.
Definition imap (f : nat -> nat) (i : cmene_info) : cmene_info :=
  CInfo (is_bad i) (can_split i) (option_map f (ladoi i)) (option_map f (tail i)).
Definition omap {A B} (f : A -> B) (o : outcome A) : outcome B := do x <- o; Ok (f x).
Lemma bcl_map f : forall l cs ns ld, bcl (map (mp f) l) cs ns (option_map f ld) = omap (imap f) (bcl l cs ns ld).
Proof.
  induction l as [|[p t] l IH]; intros cs ns ld; cbn [map bcl]; [|change (mp f (p, t)) with (f p, t); cbn [bcl]].
  - destruct ns as [ns|]; [|reflexivity]. destruct (String.eqb (bc_exitval ns) "BC_CMENE_OK"); reflexivity.
  - destruct (next_state bc_tables (Some cs) t) as [o| | | |]; try reflexivity. cbn [obind].
    destruct o as [n|]; [|reflexivity].
    destruct (String.eqb (bc_exitval n) "BC_CMENE_BAD_NOSPLIT"); [reflexivity|].
    destruct (String.eqb (bc_exitval n) "BC_CMENE_BAD_SPLIT"); [reflexivity|].
    rewrite <- IH. destruct (String.eqb (bc_attribute n) "ATTR_SEEN_LD"); reflexivity.
Qed.
Lemma btoks_plain w : btoks (letters 0 w) = map (mp (at_letter w)) (btoks (letters 0 (plain w))).
Proof.
  assert (G : forall l, btoks l = combine (map fst l) (map bc_mapchar (map snd l))).
  { induction l as [|[p c] l IH]; [reflexivity|]. unfold btoks in *. cbn [map combine fst snd]. now rewrite IH. }
  rewrite !G, !letters_fst, !letters_snd, letters_of_plain, (places_plain _ 0 (plain_no_comma w)).
  assert (map bc_mapchar (plain w) = map bc_mapchar (letters_of w)) as ->.
  { unfold plain. rewrite map_map. apply map_ext. intro c. apply (lower_same c). }
  rewrite <- combine_map_l. f_equal. unfold plain. rewrite map_length, <- (places_length w 0). symmetry. apply map_nth_seq.
Qed.
Lemma bad_plain w : is_bad_cmene w = omap (imap (at_letter w)) (is_bad_cmene (plain w)).
Proof. unfold is_bad_cmene. rewrite !bc_loop_bcl, btoks_plain. apply (bcl_map (at_letter w) _ 0 None None). Qed.

Lemma rev_tl_map {A B} (f : A -> B) l : tl (map f l) = map f (tl l).
Proof. now destruct l. Qed.
Lemma plain_answer cult w :
  match morf_scan cult (plain w) with
  | Ok r' => exists r, morf_scan cult w = Ok r /\ same_answer w r' r
  | o => morf_scan cult w = o
  end.
Proof.
  rewrite !scan_ok.
  assert (trun t_init (toks_of w) = option_map (tmap (at_letter w)) (trun t_init (toks_of (plain w)))) as ->
    by (rewrite (toks_plain w); exact (trun_map (at_letter w) _ t_init)).
  destruct (trun t_init (toks_of (plain w))) as [st|]; cbn [option_map].
  2:{ eexists. split; [reflexivity|]. unfold same_answer. cbn. auto. }
  unfold morf_end. cbn [conc tmap m_state m_starts m_cstart m_upper m_hyph3 m_hyph4 ts_m ts_starts ts_cy ts_h3 ts_h4].
  rewrite !ups_capital, plain_no_capital.
  destruct (category (morf_exitval (ts_m st))) as [c d].
  set (cap := existsb capital w).
  assert (Ty : forall t, t <> MT_CMENE -> (if cap then MT_BAD_UPPERCASE else t) = t
     \/ cap = true /\ (if cap then MT_BAD_UPPERCASE else t) = MT_BAD_UPPERCASE /\ t <> MT_CMENE).
  { intros t Ht. destruct cap; auto. }
  unfold same_answer; fold cap.
  assert (Cut : rev (if d then tl (map (at_letter w) (ts_starts st)) else map (at_letter w) (ts_starts st)) =
     map (at_letter w) (rev (if d then tl (ts_starts st) else ts_starts st))).
  { rewrite map_rev. f_equal. destruct d; [now rewrite rev_tl_map|reflexivity]. }
  rewrite ?Cut.
  destruct c; try (eexists; split; [reflexivity|]; cbn [sc_type sc_starts sc_hyph sc_cmene option_map]; rewrite ?map_app, ?map_rev;
    split; [first [apply Ty; solve [discriminate | destruct cult; discriminate] | left; reflexivity]|auto]; fail).
  rewrite (bad_plain w). destruct (is_bad_cmene (plain w)) as [i| | | |]; cbn [omap obind]; try reflexivity.
  eexists. split; [reflexivity|]. cbn [sc_type sc_starts sc_hyph sc_cmene option_map].
  split; [left; reflexivity|]. split; [rewrite <- map_rev; now rewrite firstn_map|]. split; [reflexivity|].
  unfold imap. cbn. auto.
Qed.
(* two ways of writing the same word *)
Lemma same_word_answers cult u w ru rw : same_word u w -> morf_scan cult u = Ok ru -> morf_scan cult w = Ok rw ->
  (sc_type ru = sc_type rw \/ existsb capital (u ++ w) = true /\ (sc_type ru = MT_BAD_UPPERCASE \/ sc_type rw = MT_BAD_UPPERCASE))
  /\ exists ks, sc_starts ru = map (at_letter u) ks /\ sc_starts rw = map (at_letter w) ks.
Proof.
  unfold same_word. fold (plain u) (plain w). intros E Eu Ew.
  pose proof (plain_answer cult u) as Pu. pose proof (plain_answer cult w) as Pw. rewrite E in Pu.
  destruct (morf_scan cult (plain w)) as [r'| | | |]; try congruence.
  destruct Pu as (r1 & E1 & (T1 & S1 & _)), Pw as (r2 & E2 & (T2 & S2 & _)).
  rewrite Eu in E1. rewrite Ew in E2. injection E1 as <-. injection E2 as <-.
  split; [|exists (sc_starts r'); auto]. rewrite existsb_app.
  destruct T1 as [T1|(C1 & T1 & _)], T2 as [T2|(C2 & T2 & _)].
  - left. congruence.
  - right. rewrite C2. split; [apply orb_true_r|auto].
  - right. rewrite C1. auto.
  - left. congruence.
Qed.
