(* Each piece of a split word is a word by itself. *)
From Coq Require Import String Ascii List NArith Bool Arith Lia.
From Verif Require Import Base Arr DfaModel DfaTables MorfModel LujvoSpec MorfSpec MorfProofs MorfProofs2 MorfProofs3 MorfProofs4 MorfProofs5.
Import ListNotations.
Open Scope N_scope.
Open Scope list_scope.

Lemma cm_checked : forallb (fun s => if Bool.eqb (is_cm (Some s)) (String.eqb (exit_of s) "R_CMAVOS") then true else false) (upto n_states) = true.
Proof. vm_compute. reflexivity. Qed.
Lemma cm_states s : is_cm (Some s) = true -> s < n_states /\ exit_of s = "R_CMAVOS"%string.
Proof.
  intro H. assert (B : s < n_states).
  { unfold is_cm in H. destruct (s <? 737) eqn:L; [now apply N.ltb_lt|]. exfalso.
    apply N.ltb_ge in L. destruct (aget cm_cells s) as [b|] eqn:E; [|discriminate].
    assert (K : forall k v, In (k, v) (FMapPositive.PositiveMap.elements cm_cells) -> (Pos.pred_N k <? 737) = true).
    { intros k v Hk. assert (X : forallb (fun kv => Pos.pred_N (fst kv) <? 737) (FMapPositive.PositiveMap.elements cm_cells) = true)
        by (vm_compute; reflexivity). rewrite forallb_forall in X. exact (X (k, v) Hk). }
    unfold aget in E. apply FMapPositive.PositiveMap.elements_correct in E. apply K in E.
    rewrite N.pos_pred_succ in E. apply N.ltb_lt in E. lia. }
  split; [exact B|]. pose proof (by_upto _ _ cm_checked s B) as K. cbv beta in K.
  destruct (Bool.eqb (is_cm (Some s)) (String.eqb (exit_of s) "R_CMAVOS")) eqn:Q; [|discriminate].
  apply Bool.eqb_prop in Q. rewrite H in Q. symmetry in Q. now apply String.eqb_eq.
Qed.

Definition noups (w : list ascii) : Prop := ups (letters 0 w) = false.
Lemma ups_sh l q : ups (map (sh q) l) = ups l.
Proof. unfold ups. induction l as [|[p c] l IH]; [reflexivity|]. cbn [map existsb sh snd]. now rewrite IH. Qed.
Lemma ups_app l1 l2 : ups (l1 ++ l2) = ups l1 || ups l2.
Proof. unfold ups. apply existsb_app. Qed.
Lemma noups_concat lead ps : noups (lead ++ concat ps) -> Forall noups ps.
Proof.
  unfold noups. rewrite letters_app, ups_app. intro H. apply orb_false_iff in H. destruct H as [_ H].
  revert H. generalize (0 + length lead)%nat. induction ps as [|p ps IH]; intros q H; [constructor|].
  cbn [concat] in H. rewrite letters_app, ups_app in H. apply orb_false_iff in H. destruct H as [H1 H2].
  constructor; [|exact (IH _ H2)]. replace q with (q + 0)%nat in H1 by lia. rewrite letters_sh, ups_sh in H1. exact H1.
Qed.

Lemma map_plus_inj q l l' : map (fun n => (q + n)%nat) l = map (fun n => (q + n)%nat) l' -> l = l'.
Proof.
  revert l'. induction l as [|a l IH]; intros [|b l'] H; try discriminate; [reflexivity|]. cbn in H. injection H as E H.
  f_equal; [lia|auto].
Qed.

(* how a scan of a word alone ends *)
Definition type_of (cult : bool) (c : wcat) : morf_type :=
  match c with
  | W_CMAVOS | W_CMAVOS_END_CY => MT_CMAVOS | W_GISMU => MT_GISMU | W_LUJVO => MT_LUJVO
  | W_CULTURAL_LUJVO => if cult then MT_LUJVO else MT_BOGUS
  | W_FUIVLA3 => MT_FUIVLA3 | W_FUIVLA3_CVC => MT_FUIVLA3_CVC | W_FUIVLA3X => MT_FUIVLA3X | W_FUIVLA3X_CVC => MT_FUIVLA3X_CVC
  | W_FUIVLA4 => MT_FUIVLA4 | W_CMENE => MT_CMENE | _ => MT_BOGUS
  end.
Lemma end_type cult w m r : morf_end cult w m = Ok r -> accepted (sc_type r) ->
  m_upper m = false /\ sc_type r = type_of cult (fst (category (morf_exitval (m_state m))))
  /\ (brivla_cat (fst (category (morf_exitval (m_state m)))) = true
      /\ sc_starts r = rev (if snd (category (morf_exitval (m_state m))) then tl (m_starts m) else m_starts m)
     \/ fst (category (morf_exitval (m_state m))) = W_CMAVOS /\ sc_starts r = rev (m_starts m)
     \/ fst (category (morf_exitval (m_state m))) = W_CMAVOS_END_CY /\ sc_starts r = rev (m_starts m) ++ rev (m_cstart m)).
Proof.
  unfold morf_end. destruct (category (morf_exitval (m_state m))) as [c d]. cbn [fst snd]. intros E (N1 & N2 & N3).
  destruct c; try (injection E as <-; cbn [sc_type sc_starts type_of brivla_cat] in *; destruct (m_upper m); try contradiction; auto 6; fail).
  destruct (is_bad_cmene w); try discriminate. cbn in E. injection E as <-. cbn in N3. contradiction.
Qed.
Lemma end_ok cult w m c d s : category (morf_exitval (m_state m)) = (c, d) -> m_upper m = false ->
  (brivla_cat c = true /\ rev (if d then tl (m_starts m) else m_starts m) = s
   \/ c = W_CMAVOS /\ rev (m_starts m) = s \/ c = W_CMAVOS_END_CY /\ rev (m_starts m) ++ rev (m_cstart m) = s) ->
  exists r, morf_end cult w m = Ok r /\ sc_type r = type_of cult c /\ sc_starts r = s.
Proof.
  intros Ec Hu H. unfold morf_end. rewrite Ec, Hu.
  destruct c; destruct H as [[K <-]|[[K <-]|[K <-]]]; try discriminate; eexists; (split; [reflexivity|split; reflexivity]).
Qed.

Lemma one_starts (l : list nat) q : map (fun n => (q + n)%nat) l = [q] -> l = [0%nat].
Proof. destruct l as [|a [|b l]]; try discriminate. cbn. intro H. injection H as H. f_equal. lia. Qed.
Lemma scan_of cult pc st : trun t_init (toks_of pc) = Some st -> noups pc ->
  morf_scan cult pc = morf_end cult pc (conc (fend f_init (letters 0 pc)) false st).
Proof. intros E N. rewrite scan_ok, E, N. reflexivity. Qed.

Lemma piece_word cult q pc s g m c : starts_letter pc -> ptoks f_init (letters q pc) = g -> group s g -> alone g = Some m ->
  category (exit_of m) = (c, false) -> brivla_cat c = true \/ c = W_CMAVOS -> noups pc -> one_word cult (type_of cult c) pc.
Proof.
  intros Sp E (t & l & -> & Ti & R) Em Ec Hc Nu.
  destruct (piece_scan q pc s t l m Sp E Em) as (st & A & B & C & D & _ & _).
  rewrite Ti, R in D. cbn in D. apply one_starts in D.
  destruct (end_ok cult pc (conc (fend f_init (letters 0 pc)) false st) c false [0%nat]) as (r & R1 & R2 & R3).
  - cbn [m_state conc]. rewrite B, (exit_ok m C). exact Ec.
  - reflexivity.
  - cbn [m_starts conc]. rewrite D. destruct Hc as [K|K]; [left|right; left]; auto.
  - exists r. rewrite (scan_of cult pc st A Nu). auto.
Qed.
Lemma piece_word2 cult q pc s g m c s2 : starts_letter pc -> ptoks f_init (letters q pc) = g ->
  (exists t l, g = (s, t) :: l /\ tinh t = false /\ recs false l = [s2]) -> alone g = Some m ->
  category (exit_of m) = (c, true) -> brivla_cat c = true -> noups pc -> one_word cult (type_of cult c) pc.
Proof.
  intros Sp E (t & l & -> & Ti & R) Em Ec Hc Nu.
  destruct (piece_scan q pc s t l m Sp E Em) as (st & A & B & C & D & L & _).
  rewrite Ti, R in D. cbn in D.
  destruct (ts_starts st) as [|a [|b [|? ?]]] eqn:Est; try discriminate. cbn in L. subst b.
  destruct (end_ok cult pc (conc (fend f_init (letters 0 pc)) false st) c true [0%nat]) as (r & R1 & R2 & R3).
  - cbn [m_state conc]. rewrite B, (exit_ok m C). exact Ec.
  - reflexivity.
  - cbn [m_starts conc]. rewrite Est. left. auto.
  - exists r. rewrite (scan_of cult pc st A Nu). auto.
Qed.
Lemma cm_piece cult q pc s g : starts_letter pc -> ptoks f_init (letters q pc) = g -> group s g -> is_cm (alone g) = true ->
  noups pc -> one_word cult MT_CMAVOS pc.
Proof.
  intros Sp E G C Nu. destruct (alone g) as [m|] eqn:Em; [|discriminate]. destruct (cm_states m C) as [_ X].
  apply (piece_word cult q pc s g m W_CMAVOS Sp E G Em); [rewrite X; reflexivity|right; reflexivity|exact Nu].
Qed.

(* ---- the Cy words ---- *)
Definition cyp (g : list (nat * N)) : Prop := exists p t p', g = [(p, t); (p', 3)] /\ (tset t = true \/ tinh t = true).
Definition hpos (g : list (nat * N)) : nat := match g with (p, _) :: _ => p | [] => 0%nat end.
Lemma CY_pairs_gen : forall q g c, CY q g c ->
  (q = 2 -> exists prs, g = concat prs /\ Forall cyp prs /\ prs <> [] /\ rev c = tl (map hpos prs))
  /\ (q = 1 \/ q = 3 -> exists prs p t, g = concat prs ++ [(p, t)] /\ Forall cyp prs /\ (tset t = true \/ tinh t = true)
        /\ rev c = tl (map hpos prs ++ [p])).
Proof.
  induction 1 as [p t Ht|q g c p Hq H [_ IH]|g c p t H [IH _] Ht].
  - split; [discriminate|]. intros _. exists [], p, t. auto.
  - split; [|intros [Q|Q]; discriminate]. intros _. destruct (IH Hq) as (prs & p0 & t & -> & F & Ht & Hc).
    exists (prs ++ [[(p0, t); (p, 3)]]). split; [rewrite concat_app; cbn; now rewrite <- app_assoc|].
    split; [apply Forall_app; split; [exact F|constructor; [exists p0, t, p; auto|constructor]]|].
    split; [now destruct prs|]. rewrite Hc, map_app. reflexivity.
  - split; [discriminate|]. intros _. destruct (IH eq_refl) as (prs & -> & F & N & Hc). exists prs, p, t.
    split; [reflexivity|]. split; [exact F|]. split; [right; exact Ht|]. cbn [rev]. rewrite Hc. destruct prs; [contradiction|reflexivity].
Qed.
Lemma CY_pairs g c : CY 2 g c -> exists prs, g = concat prs /\ Forall cyp prs /\ prs <> [] /\ rev c = tl (map hpos prs).
Proof. intro H. exact (proj1 (CY_pairs_gen _ _ _ H) eq_refl). Qed.

Lemma tok3_checked : forallb (fun i => forallb (fun j => forallb (fun k => if N.eqb (vcheck i j k) 3 then N.eqb k 2 else true) (upto 8)) (upto 8)) (upto 8) = true.
Proof. vm_compute. reflexivity. Qed.
Lemma v2_chars d : vmapchar d = 2 -> d = "y"%char \/ d = "Y"%char.
Proof.
  intro H. pose proof (LujvoProofs.by_chars (fun d => if N.eqb (vmapchar d) 2 then Ascii.eqb d "y" || Ascii.eqb d "Y" else true)
    ltac:(vm_compute; reflexivity) d) as K. cbv beta in K. rewrite H in K. cbn in K. apply orb_prop in K.
  destruct K as [K|K]; apply Ascii.eqb_eq in K; auto.
Qed.
Lemma tok3 f d : finv f -> d <> ","%char -> ftok f d = 3 -> d = "y"%char \/ d = "Y"%char.
Proof.
  intros Hf Hd H. apply v2_chars. unfold ftok, flook, letter_token in H. destruct f as [L Sv [[v1 v2] v3]].
  destruct Hf as [HS (H1 & H2 & H3)]. cbn [f_v f_L f_S fst] in *.
  set (e := inact L Sv (snd (mapchar d))) in *.
  destruct (N.eqb (fe_tok e) 1 || N.eqb (fe_tok e) 3) eqn:Q.
  - pose proof (by_upto _ _ (by_upto _ _ (by_upto _ _ tok3_checked v2 ltac:(lia)) v3 ltac:(lia)) (vmapchar d) (vmap_lt d)) as K.
    cbv beta in K. rewrite H in K. cbn in K. now apply N.eqb_eq.
  - destruct (N.eqb v2 0 && N.eqb v3 0); [discriminate|]. rewrite H in Q. discriminate.
Qed.
Lemma cy_alone c : consg (snd (mapchar c)) = true ->
  (ftok f_init c = 4 \/ ftok f_init c = 5 \/ ftok f_init c = 6) /\ ftok (fgo f_init c) "y" = 3 /\ ftok (fgo f_init c) "Y" = 3.
Proof.
  pose proof (LujvoProofs.by_chars (fun c => if consg (snd (mapchar c)) then
     if among_n [4; 5; 6] (ftok f_init c) then if N.eqb (ftok (fgo f_init c) "y") 3 then N.eqb (ftok (fgo f_init c) "Y") 3 else false else false else true)
    ltac:(vm_compute; reflexivity) c) as H. cbv beta in H. intro E. rewrite E in H.
  destruct (among_n [4; 5; 6] (ftok f_init c)) eqn:Q; [|discriminate].
  destruct (N.eqb_spec (ftok (fgo f_init c) "y") 3); [|discriminate]. apply N.eqb_eq in H.
  unfold among_n in Q. cbn [existsb] in Q. rewrite !orb_true_iff, !N.eqb_eq in Q. split; [|auto].
  destruct Q as [Q|[Q|[Q|Q]]]; [auto..|discriminate].
Qed.
Definition cy_end : forallb (fun t => match nrun (Some 0) [t; 3] with Some m => String.eqb (exit_of m) "R_CMAVOS_END_CY" | None => false end) [4; 5; 6] = true.
Proof. vm_compute. reflexivity. Qed.
Lemma cy_piece cult f q pc g : finv f -> starts_letter pc -> ptoks f (letters q pc) = g -> cyp g -> noups pc -> one_word cult MT_CMAVOS pc.
Proof.
  intros Hf Sp E (p & t & p' & -> & Ht) Nu.
  pose proof (letters_no_comma pc q) as Fl.
  destruct (letters q pc) as [|[p1 c] [|[p2 d] [|[? ?] ?]]] eqn:El; cbn [ptoks] in E; try discriminate. injection E as -> Ec -> Ed.
  inversion Fl as [|? ? Nc Fl' X1]; subst. inversion Fl' as [|? ? Nd _ X2]; subst. cbn [snd] in *.
  pose proof (flook_ok f c Hf Nc) as K. unfold ftok in Ht. destruct (flook f c) as [t e] eqn:Ef. cbn [fst] in Ht.
  destruct K as (_ & Hf' & K). assert (Nt : t <> 0) by (intros ->; destruct Ht; discriminate).
  destruct (K Nt) as (_ & _ & _ & KA & KB & _).
  assert (Cg : consg (snd (mapchar c)) = true) by (destruct Ht as [Ht|Ht]; [apply (KA Ht)|apply (KB Ht)]).
  destruct (cy_alone c Cg) as (T & Y1 & Y2).
  assert (Y : ftok (fgo f_init c) d = 3) by (destruct (tok3 _ _ Hf' Nd Ed) as [-> | ->]; assumption).
  assert (E : ptoks f_init (letters q pc) = [(p, ftok f_init c); (p', 3)]) by (rewrite El; cbn [ptoks]; now rewrite Y).
  assert (M : exists m, alone [(p, ftok f_init c); (p', 3)] = Some m /\ exit_of m = "R_CMAVOS_END_CY"%string).
  { unfold alone. cbn [map snd]. pose proof cy_end as X. rewrite forallb_forall in X. specialize (X (ftok f_init c)).
    destruct (nrun (Some 0) [ftok f_init c; 3]) as [m|] eqn:En.
    - exists m. split; [reflexivity|]. apply String.eqb_eq, X. destruct T as [T|[T|T]]; rewrite T; cbn; auto.
    - assert (false = true) by (apply X; destruct T as [T|[T|T]]; rewrite T; cbn; auto). discriminate. }
  destruct M as (m & Em & Ex). destruct (piece_scan q pc _ _ _ m Sp E Em) as (st & A & B & C & D & _ & F).
  assert (Tt : tinh (ftok f_init c) = false /\ tact (ftok f_init c) = AC_SFT) by (destruct T as [-> | [-> | ->]]; split; reflexivity).
  destruct Tt as [Ti Ta]. rewrite Ti in D. cbn in D. apply one_starts in D.
  rewrite Ta in F. cbn in F. apply map_eq_nil in F.
  destruct (end_ok cult pc (conc (fend f_init (letters 0 pc)) false st) W_CMAVOS_END_CY false [0%nat]) as (r & R1 & R2 & R3).
  - cbn [m_state conc]. rewrite B, (exit_ok m C), Ex. reflexivity.
  - reflexivity.
  - cbn [m_starts m_cstart conc]. rewrite D, F. right. right. auto.
  - exists r. rewrite (scan_of cult pc st A Nu). auto.
Qed.

(* ---- putting the pieces together ---- *)
Lemma after_commas w q t l : toks_of w = (q, t) :: l ->
  exists lead v, w = lead ++ v /\ forallb comma lead = true /\ q = length lead /\ starts_letter v /\ ptoks f_init (letters q v) = toks_of w.
Proof.
  intro E. unfold toks_of in *. destruct (letters 0 w) as [|[p c] B] eqn:El; [discriminate|]. cbn [ptoks] in E.
  injection E as -> _ _. destruct (letters_split w 0 [] q c B El) as (u & v & -> & -> & Hu & Hv & Hc).
  exists u, (c :: v). split; [reflexivity|]. split; [exact (letters_none u 0 Hu)|]. split; [reflexivity|].
  split; [exists c, v; auto|]. cbn [letters]. unfold comma in Hc. rewrite Hc, Hv. reflexivity.
Qed.
Lemma split_of w gl : toks_of w = concat gl -> gl <> [] -> Forall (fun g => g <> []) gl ->
  exists ps, split_at w (map hpos gl) ps
    /\ Forall2 (fun pc g => exists f q, finv f /\ ptoks f (letters q pc) = g) ps gl
    /\ (exists pc pr q, ps = pc :: pr /\ ptoks f_init (letters q pc) = hd [] gl).
Proof.
  intros E Ngl Ng. destruct gl as [|g gl]; [contradiction|]. inversion Ng as [|? ? Hg _ X]; subst.
  destruct g as [|[q t] g]; [contradiction|]. cbn [concat app] in E.
  destruct (after_commas w q t _ E) as (lead & v & -> & Hl & -> & Sv & Ev). rewrite E in Ev.
  destruct (pieces (((length lead, t) :: g) :: gl) v (length lead) f_init finv_init Ev Sv Ngl Ng) as (ps & -> & Sp & Fp & (pc & pr & -> & Hpc) & Op).
  exists (pc :: pr). split; [|split; [exact Fp|exists pc, pr, (length lead); auto]].
  exists lead. split; [exact Hl|]. split; [reflexivity|]. split; [symmetry; exact Op|exact Sp].
Qed.
Lemma fresh_all ps gl : Forall2 (fun pc g => exists f q, finv f /\ ptoks f (letters q pc) = g) ps gl ->
  (exists pc pr q, ps = pc :: pr /\ ptoks f_init (letters q pc) = hd [] gl) -> Forall first_set (tl gl) ->
  Forall2 (fun pc g => exists q, ptoks f_init (letters q pc) = g) ps gl.
Proof.
  intros F (pc & pr & q & -> & H) Fs. inversion F as [|? g ? gl' (f0 & q0 & _ & E0) F' X Y]; subst.
  constructor; [exists q; exact H|]. cbn [tl] in Fs. clear H F. revert Fs.
  induction F' as [|pc' g' pr' gl'' (f1 & q1 & Hf & E1) F' IH]; intro Fs; constructor.
  - inversion Fs; subst. exists q1. apply (fresh_piece f1); auto.
  - inversion Fs; subst. auto.
Qed.
Lemma removelast_rev {A} (l : list A) : tl (rev l) = rev (removelast l).
Proof.
  destruct l as [|a l] using rev_ind; [reflexivity|]. rewrite removelast_last, rev_app_distr. reflexivity.
Qed.
Lemma group_ne s g : group s g -> g <> [].
Proof. intros (t & l & -> & _). discriminate. Qed.
Lemma groups_ne ss gs : Forall2 group ss gs -> Forall (fun g => g <> []) gs.
Proof. induction 1; constructor; [eapply group_ne; eassumption|assumption]. Qed.
Lemma groups_pos ss gs : Forall2 group ss gs -> ss = map hpos gs.
Proof. induction 1 as [|s g ss gs (t & l & -> & _) F IH]; [reflexivity|]. cbn. now f_equal. Qed.
Lemma groups_each ss gs : Forall2 group ss gs -> Forall (fun g => group (hpos g) g) gs.
Proof. induction 1 as [|s g ss gs (t & l & -> & A & B) F IH]; constructor; [|exact IH]. exists t, l. auto. Qed.
Lemma Forall2_snoc_r {A B} (R : A -> B -> Prop) ps gl g : Forall2 R ps (gl ++ [g]) ->
  exists front lastp, ps = front ++ [lastp] /\ Forall2 R front gl /\ R lastp g.
Proof.
  intro H. apply Forall2_app_inv_r in H. destruct H as (f & l & H1 & H2 & ->).
  inversion H2 as [|x ? l' ? Hx Hn]; subst. inversion Hn; subst. eauto.
Qed.

Lemma front_words cult front gl : Forall2 (fun pc g => exists q, ptoks f_init (letters q pc) = g) front gl ->
  Forall starts_letter front -> Forall noups front -> Forall (fun g => group (hpos g) g) gl ->
  forallb (fun g => is_cm (alone g)) gl = true -> Forall (one_word cult MT_CMAVOS) front.
Proof.
  induction 1 as [|pc g front gl (q & E) F IH]; intros Sl Nu Gr Cm; [constructor|].
  inversion Sl; subst. inversion Nu; subst. inversion Gr; subst. cbn [forallb] in Cm. apply andb_prop in Cm. destruct Cm.
  constructor; [|auto]. eapply cm_piece; eauto.
Qed.
Lemma forallb_rev {A} (f : A -> bool) l : forallb f (rev l) = forallb f l.
Proof.
  induction l as [|a l IH]; [reflexivity|]. cbn [rev]. rewrite forallb_app, IH. cbn. now rewrite andb_true_r, andb_comm.
Qed.
Lemma Forall_rev' {A} (P : A -> Prop) l : Forall P l -> Forall P (rev l).
Proof. apply Forall_rev. Qed.

Lemma split_noups w ss ps : split_at w ss ps -> noups w -> Forall noups ps.
Proof. intros (lead & _ & -> & _) N. exact (noups_concat lead ps N). Qed.
Lemma split_letters w ss ps : split_at w ss ps -> Forall starts_letter ps.
Proof. intros (lead & _ & _ & _ & F). exact F. Qed.

Lemma words cult w r : morf_scan cult w = Ok r -> accepted (sc_type r) ->
  exists front lastp, split_at w (sc_starts r) (front ++ [lastp]) /\ Forall (one_word cult MT_CMAVOS) front
    /\ one_word cult (sc_type r) lastp.
Proof.
  intros E Ac. rewrite scan_ok in E. destruct (trun t_init (toks_of w)) as [st|] eqn:Et.
  2:{ injection E as <-. destruct Ac as [Ac _]. cbn in Ac. contradiction. }
  destruct (followed w st Et) as (x & gs & I & Good).
  destruct (end_type _ _ _ _ E Ac) as (Nu & Ty & Cases). cbn [m_upper m_state m_starts m_cstart conc] in *.
  fold (noups w) in Nu. rewrite (exit_ok _ (i_ms _ _ _ _ I)) in *.
  unfold a_good in Good. rewrite (i_m _ _ _ _ I) in Good.
  destruct (category (exit_of (ts_m st))) as [c d] eqn:Ec. cbn [fst snd] in *.
  pose proof (groups_ne _ _ (i_starts _ _ _ _ I)) as Gne. pose proof (groups_pos _ _ (i_starts _ _ _ _ I)) as Gpos.
  pose proof (groups_each _ _ (i_starts _ _ _ _ I)) as Geach.
  pose proof (i_toks _ _ _ _ I) as Tk. pose proof (i_sets _ _ _ _ I) as Sets.
  assert (Simple : forall g gr a, gs = g :: gr -> alone g = Some a -> exit_of a = exit_of (ts_m st) \/ (c = W_CMAVOS /\ is_cm (Some a) = true) ->
    d = false \/ c = W_CMAVOS -> brivla_cat c = true \/ c = W_CMAVOS -> forallb (fun g => is_cm (alone g)) gr = true -> sc_starts r = rev (ts_starts st) ->
    exists front lastp, split_at w (sc_starts r) (front ++ [lastp]) /\ Forall (one_word cult MT_CMAVOS) front /\ one_word cult (sc_type r) lastp).
  { intros g gr a -> Ea Ex Hd Hc Cm Es.
    destruct (split_of w (rev (g :: gr)) Tk) as (ps & Sp & F & Fi); [cbn [rev]; now destruct (rev gr)|now apply Forall_rev|].
    assert (Fs : Forall first_set (tl (rev (g :: gr)))) by (rewrite removelast_rev; now apply Forall_rev).
    pose proof (fresh_all _ _ F Fi Fs) as F'. cbn [rev] in F'.
    destruct (Forall2_snoc_r _ _ _ _ F') as (front & lastp & -> & F1 & (q & El)).
    pose proof (split_noups _ _ _ Sp Nu) as Nps. pose proof (split_letters _ _ _ Sp) as Lps.
    apply Forall_app in Nps, Lps. destruct Nps as [N1 N2], Lps as [L1 L2]. inversion N2; subst. inversion L2; subst.
    inversion Geach as [|? ? Gg Gr X]; subst.
    exists front, lastp. split; [|split].
    - rewrite Es, Gpos, <- map_rev. exact Sp.
    - apply (front_words cult front (rev gr)); auto; [now apply Forall_rev|now rewrite forallb_rev].
    - rewrite Ty. destruct Ex as [Ex|[-> Ex]].
      + apply (piece_word cult q lastp (hpos (ptoks f_init (letters q lastp))) (ptoks f_init (letters q lastp)) a c); auto. rewrite Ex, Ec.
        destruct Hd as [-> | ->]; [reflexivity|]. destruct Hc as [Hc|_]; [discriminate|].
        clear - Ec. unfold category in Ec. destruct (find _ categories) as [[n [cc dd]]|] eqn:Fd; [|discriminate].
        apply find_some in Fd. destruct Fd as [Fd _]. injection Ec as -> ->. cbn in Fd.
        repeat (destruct Fd as [Fd|Fd]; [try (injection Fd; intros; subst; congruence); try discriminate|]). destruct Fd.
      + eapply cm_piece; eauto. rewrite Ea. exact Ex. }
  destruct Cases as [[Bc Es]|[[-> Es]|[-> Es]]].
  - rewrite Bc in Good. destruct d.
    + (* the last recorded start lies inside the word *)
      destruct (x_b x) as [b|] eqn:Xb; [|discriminate]. destruct (x_one x) eqn:X1; [discriminate|].
      destruct (x_ok2 x) eqn:Ok2; [|discriminate]. apply String.eqb_eq in Good.
      pose proof (i_b _ _ _ _ I) as Ib. rewrite Xb in Ib. destruct gs as [|g [|h gr]]; try discriminate.
      pose proof (i_ok2 _ _ _ _ I) as Io. rewrite Ok2 in Io. cbn [tl] in Io.
      inversion Gne as [|? ? Gg Gne' X]; subst. inversion Gne' as [|? ? Gh Gner X]; subst.
      inversion Geach as [|? ? Eg Geach' X]; subst. inversion Geach' as [|? ? Eh Er X]; subst.
      assert (Tk2 : toks_of w = concat (rev ((h ++ g) :: gr))).
      { rewrite Tk. cbn [rev]. rewrite !concat_app. cbn [concat]. now rewrite !app_nil_r, <- app_assoc. }
      destruct (split_of w (rev ((h ++ g) :: gr)) Tk2) as (ps & Sp & F & Fi);
        [cbn [rev]; now destruct (rev gr)|apply Forall_rev; constructor; [now destruct h|exact Gner]|].
      assert (Fs : Forall first_set (tl (rev ((h ++ g) :: gr)))).
      { rewrite removelast_rev. apply Forall_rev. cbn [removelast] in Sets.
        inversion Sets as [|? ? Sg Sr X]; subst. destruct gr as [|k gr]; [constructor|].
        change (removelast (h :: k :: gr)) with (h :: removelast (k :: gr)) in Sr.
        change (removelast ((h ++ g) :: k :: gr)) with ((h ++ g) :: removelast (k :: gr)).
        inversion Sr as [|? ? Sh Sr' X]; subst. constructor; [|exact Sr']. destruct h as [|[? ?] h]; [destruct Sh|exact Sh]. }
      pose proof (fresh_all _ _ F Fi Fs) as F'. cbn [rev] in F'.
      destruct (Forall2_snoc_r _ _ _ _ F') as (front & lastp & -> & F1 & (q & El)).
      pose proof (split_noups _ _ _ Sp Nu) as Nps. pose proof (split_letters _ _ _ Sp) as Lps.
      apply Forall_app in Nps, Lps. destruct Nps as [N1 N2], Lps as [L1 L2]. inversion N2; subst. inversion L2; subst.
      exists front, lastp. split; [|split].
      * rewrite Es, Gpos. cbn [map tl]. change (hpos h :: map hpos gr) with (map hpos (h :: gr)).
        replace (map hpos (h :: gr)) with (map hpos ((h ++ g) :: gr)); [rewrite <- map_rev; exact Sp|].
        cbn [map]. f_equal. destruct h as [|[? ?] h]; [contradiction|reflexivity].
      * apply (front_words cult front (rev gr)); auto; [now apply Forall_rev|now rewrite forallb_rev].
      * rewrite Ty. destruct Eh as (th & lh & Hh & Th & Rh).
        apply (piece_word2 cult q lastp (hpos h) (h ++ g) b c (hpos g)); auto; [|rewrite Good; exact Ec].
        exists th, (lh ++ g). split; [rewrite Hh at 1; reflexivity|]. split; [exact Th|].
        rewrite recs_app, Rh. cbn [app].
        assert (inhs false lh = false) as ->.
        { pose proof (i_inhs _ _ _ _ I) as Ii. cbn [tl] in Ii. inversion Ii as [|? ? Hi _ X]; subst.
          rewrite Hh in Hi. unfold inhs in Hi. cbn [fold_left snd orb] in Hi. rewrite Th in Hi. exact Hi. }
        destruct Eg as (tg & lg & Hg & Tg & Rg). rewrite Hg at 1. cbn [recs orb]. rewrite Tg. cbn [negb].
        change (removelast (g :: h :: gr)) with (g :: removelast (h :: gr)) in Sets. inversion Sets as [|? ? Sg Sr X]; subst.
        rewrite Hg in Sg. cbn in Sg. rewrite Sg. cbn [andb]. rewrite Rg. reflexivity.
    + destruct (x_a x) as [a|] eqn:Xa; [|discriminate]. destruct (x_ok x) eqn:Ok1; [|discriminate]. apply String.eqb_eq in Good.
      pose proof (i_a _ _ _ _ I) as Ia. rewrite Xa in Ia. destruct gs as [|g gr]; [discriminate|].
      pose proof (i_ok _ _ _ _ I) as Io. rewrite Ok1 in Io. cbn [tl] in Io.
      apply (Simple g gr a); auto.
  - cbn [brivla_cat] in Good. destruct (x_ok x) eqn:Ok1; [|discriminate].
    pose proof (i_a _ _ _ _ I) as Ia. destruct (x_a x) as [a|] eqn:Xa; [|discriminate]. destruct gs as [|g gr]; [discriminate|].
    pose proof (i_ok _ _ _ _ I) as Io. rewrite Ok1 in Io. cbn [tl] in Io.
    apply (Simple g gr a); auto.
  - cbn [brivla_cat] in Good. destruct (x_ok x) eqn:Ok1; [|discriminate].
    pose proof (i_ok _ _ _ _ I) as Io. rewrite Ok1 in Io.
    destruct (N.eqb (x_q x) 2 && negb (x_cyold x)) eqn:Q.
    + apply andb_prop in Q. destruct Q as [Q1 Q2]. apply N.eqb_eq in Q1. apply negb_true_iff in Q2.
      destruct (i_q _ _ _ _ I Q2 ltac:(lia)) as (g & gr & -> & K). rewrite Q1 in K. cbn [tl] in Io.
      destruct (CY_pairs _ _ K) as (prs & Eg & Fp & Np & Hc).
      inversion Gne as [|? ? Gg Gner X]; subst. inversion Geach as [|? ? Ge Er X]; subst.
      assert (Pne : Forall (fun g => g <> []) prs).
      { eapply Forall_impl; [|exact Fp]. intros ? (? & ? & ? & -> & _). discriminate. }
      assert (Tk2 : toks_of w = concat (rev gr ++ prs)).
      { rewrite Tk. cbn [rev]. rewrite !concat_app. cbn [concat]. now rewrite !app_nil_r. }
      destruct (split_of w (rev gr ++ prs) Tk2) as (ps & Sp & F & Fi);
        [destruct prs; [contradiction|]; now destruct (rev gr)|apply Forall_app; split; [now apply Forall_rev|exact Pne]|].
      apply Forall2_app_inv_r in F. destruct F as (front & cyps & F1 & F2 & ->).
      pose proof (split_noups _ _ _ Sp Nu) as Nps. pose proof (split_letters _ _ _ Sp) as Lps.
      apply Forall_app in Nps, Lps. destruct Nps as [N1 N2], Lps as [L1 L2].
      assert (Wcy : Forall (one_word cult MT_CMAVOS) cyps).
      { clear - F2 Fp N2 L2. induction F2 as [|pc g cyps prs (f & q & Hf & E) F2 IH]; [constructor|].
        inversion Fp; subst. inversion N2; subst. inversion L2; subst. constructor; [|auto]. eapply cy_piece; eauto. }
      assert (Wfr : Forall (one_word cult MT_CMAVOS) front).
      { destruct gr as [|h gr] using rev_ind; [inversion F1; constructor|]. clear IHgr.
        apply (front_words cult front (rev (gr ++ [h]))); auto; [|now apply Forall_rev|now rewrite forallb_rev].
        apply fresh_all; [exact F1| |].
        - rewrite rev_app_distr in F1 |- *. cbn [rev app hd] in *. inversion F1 as [|pc ? pr ? _ _ X]; subst.
          destruct Fi as (pc' & pr' & q & Eq & H). cbn [app] in Eq. injection Eq as <- <-. exists pc, pr, q. split; [reflexivity|].
          rewrite rev_app_distr in H. exact H.
        - rewrite removelast_rev. apply Forall_rev. rewrite removelast_last. rewrite app_comm_cons, removelast_last in Sets. now inversion Sets. }
      assert (Ncy : cyps <> []) by (intros ->; inversion F2; subst; contradiction).
      destruct (exists_last Ncy) as (cf & cl & ->). apply Forall_app in Wcy. destruct Wcy as [Wc1 Wc2]. inversion Wc2; subst.
      exists (front ++ cf), cl. rewrite <- app_assoc. split; [|split; [apply Forall_app; auto|rewrite Ty; assumption]].
      rewrite Es, Gpos, Hc. cbn [map rev]. rewrite map_app in Sp. rewrite <- map_rev, <- app_assoc. cbn [app].
      replace (hpos (concat prs) :: tl (map hpos prs)) with (map hpos prs); [exact Sp|].
      destruct prs as [|p0 prs]; [contradiction|]. cbn [map tl concat]. f_equal. inversion Pne; subst.
      destruct p0 as [|[? ?] p0]; [contradiction|reflexivity].
    + apply andb_prop in Good. destruct Good as [X1 Ncy]. apply negb_true_iff in Ncy.
      pose proof (i_one _ _ _ _ I) as I1. rewrite X1 in I1. destruct gs as [|g [|h gr]]; try discriminate.
      pose proof (i_cy _ _ _ _ I) as Ic. rewrite Ncy in Ic. destruct (ts_cy st) eqn:Ecy; [|discriminate].
      destruct (split_of w [g]) as (ps & Sp & F & (pc & pr & q & -> & Hq)); [exact Tk|discriminate|exact Gne|].
      inversion F as [|? ? ? ? _ F0 X]; subst. inversion F0; subst.
      pose proof (split_noups _ _ _ Sp Nu) as Nps. pose proof (split_letters _ _ _ Sp) as Lps.
      inversion Nps; subst. inversion Lps; subst.
      exists [], pc. cbn [app]. split; [|split; [constructor|]].
      * rewrite Es, Gpos. cbn. exact Sp.
      * rewrite Ty. inversion Geach as [|? ? (t & l & Eg & Ti & Rl) _ X]; subst.
        pose proof (trun_nrun _ _ _ Et) as Nr. rewrite Tk in Nr. cbn [rev app concat] in Nr. rewrite app_nil_r in Nr.
        cbn [hd] in Hq. rewrite Eg in Nr, Hq. cbn [t_init ts_m] in Nr.
        destruct (piece_scan q pc _ _ _ _ ltac:(assumption) Hq Nr) as (st' & A & B & C & D & _ & Fc).
        rewrite Ti, Rl in D. cbn in D. apply one_starts in D.
        assert (Cy0 : cyrecs (tact t) l = []).
        { cbn [rev app concat] in Tk. rewrite app_nil_r in Tk. rewrite Tk, Eg in Et.
          destruct (trun_init _ _ _ _ Nr) as (st2 & E2 & _ & _ & E3). rewrite E2 in Et. injection Et as ->. rewrite Ecy in E3.
          symmetry in E3. apply (f_equal (@rev nat)) in E3. rewrite rev_involutive in E3. exact E3. }
        rewrite Cy0 in Fc. cbn in Fc. apply map_eq_nil in Fc.
        destruct (end_ok cult pc (conc (fend f_init (letters 0 pc)) false st') W_CMAVOS_END_CY d [0%nat]) as (r' & R1 & R2 & R3).
        { cbn [m_state conc]. rewrite B, (exit_ok _ C). exact Ec. }
        { reflexivity. }
        { cbn [m_starts m_cstart conc]. rewrite D, Fc. right. right. auto. }
        exists r'. rewrite (scan_of cult pc st' A ltac:(assumption)). auto.
Qed.
