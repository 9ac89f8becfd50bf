(* The glossed output of parse trees: groups that are translated as a whole. *)
From Coq Require Import String Ascii List NArith ZArith Bool Arith Lia.
From Verif Require Import Base TokData CmavoData TokModel StreamModel TreeModel TreeOutModel ErasureProofs GrammarData GramModel GramSpec
  GramProofs PassModel PassSpec PassProofs PassProofs2 ConnectModel ConnectSpec ConnectProofs ConnectProofs2.
From Verif Require Import OutModel OutSpec OutProofs OutProofs2 OutProofs3 OutProofs4 OutProofs7 OutProofs8.
Import TransModel(tctx).
Import ListNotations.
Open Scope string_scope.
Open Scope list_scope.

(* the words of a small production *)
Lemma ornament_leaves u : ornament u -> forall p, Forall (fun e => attachable (snd e) = true) (leaves p u).
Proof.
  induction u as [x|ty ch IH] using tree_induct; intros O p.
  - constructor; [exact O|constructor].
  - rewrite leaves_kids. cbn [ornament] in O. destruct O as [_ O]. generalize 0. induction IH as [|c l Hc Hl IHl]; intro i; [constructor|].
    cbn [leaves_from]. destruct O as [O1 O2]. apply Forall_app. split; [exact (Hc O1 _)|exact (IHl O2 _)].
Qed.
Lemma ornaments_leaves us : Forall ornament us -> forall p i, Forall (fun e => attachable (snd e) = true) (leaves_from p i us).
Proof.
  induction 1 as [|u us O OS IH]; intros p i; [constructor|]. cbn [leaves_from]. apply Forall_app. split; [apply ornament_leaves; exact O|apply IH].
Qed.
Lemma leaves_from_app p l l' : forall i, leaves_from p i (l ++ l') = leaves_from p i l ++ leaves_from p (i + List.length l) l'.
Proof.
  induction l as [|c l IH]; intro i; [rewrite Nat.add_0_r; reflexivity|]. cbn [app leaves_from List.length]. rewrite IH, app_assoc.
  replace (S i + List.length l) with (i + S (List.length l)) by lia. reflexivity.
Qed.
Notation of s := (fun e : path * node => cmtest (snd e) s).
Lemma ornaments_filter s l : plain s = true -> Forall (fun e : path * node => attachable (snd e) = true) l -> filter (of s) l = [].
Proof.
  intros P. induction 1 as [|e l A F IH]; [reflexivity|]. cbn [filter]. rewrite (attach_other _ s A P). exact IH.
Qed.
Lemma word_leaves t c s p : wordlike t c -> plain s = true -> map snd (filter (of s) (leaves p c)) = cmavo_candidates [c] s.
Proof.
  intros W P. destruct (wordlike_inv _ _ W) as [(x & X & ->)|(bs & x & us & B & X & U & ->)].
  - unfold cmavo_candidates. cbn [leaves filter flat_map snd]. destruct (cmtest x s); reflexivity.
  - rewrite leaves_kids, leaves_from_app. cbn [leaves_from leaves]. rewrite !filter_app, !map_app.
    rewrite (ornaments_filter s (leaves_from p 0 bs) P (ornaments_leaves bs B p 0)), (ornaments_filter s _ P (ornaments_leaves us U p _)).
    unfold cmavo_candidates. cbn [flat_map]. rewrite String.eqb_refl, flat_map_app, (ornament_cands bs s B P).
    cbn [flat_map app map filter snd]. rewrite (ornament_cands us s U P), !app_nil_r. destruct (cmtest x s); reflexivity.
Qed.
Lemma production_leaves ss ch s p : fitsx ss ch -> forallb (fun y => match y with ST _ => true | _ => false end) ss = true -> plain s = true ->
  forall i, map snd (filter (of s) (leaves_from p i ch)) = cmavo_candidates ch s.
Proof.
  intros F A P. induction F as [|ty ss ch cs F IH|t x ss cs W F IH|t ss cs F IH|t x ss cs W F IH]; intro i; try discriminate A; [reflexivity|].
  cbn [leaves_from]. rewrite candidates_cons, filter_app, map_app, (word_leaves t x s _ W P), (IH A). reflexivity.
Qed.
Lemma find_filter {A} (f : A -> bool) l : find f l = hd_error (filter f l).
Proof. induction l as [|a l IH]; [reflexivity|]. cbn [find filter]. destruct (f a); [reflexivity|exact IH]. Qed.
Lemma leaves_moved t : forall p q, map snd (leaves p t) = map snd (leaves q t).
Proof.
  induction t as [x|ty ch IH] using tree_induct; intros p q; [reflexivity|]. rewrite !leaves_kids. generalize 0.
  induction IH as [|c l Hc Hl IHl]; intro i; [reflexivity|]. cbn [leaves_from]. rewrite !map_app, (Hc (p ++ [i]) (q ++ [i])), (IHl (S i)). reflexivity.
Qed.
Lemma first_of_candidates ss ch ty s : fitsx ss ch -> forallb (fun y => match y with ST _ => true | _ => false end) ss = true -> plain s = true ->
  first_of s (NT ty ch) = match find_nth_cmavo_child ch 1 s with Some x => Some (text_of x) | None => None end.
Proof.
  intros F A P. pose proof (production_leaves ss ch s [] F A P 0) as L. unfold first_of, find_nth_cmavo_child. rewrite leaves_kids, find_filter.
  change (fun e : path * node => match dat (snd e) with N_CMAVO s' _ _ => tok_eqb s' s | _ => false end) with (of s).
  rewrite <- L. assert (C : Forall (fun e => of s e = true) (filter (of s) (leaves_from [] 0 ch))).
  { apply Forall_forall. intros e I. apply filter_In in I. exact (proj2 I). }
  destruct (filter (of s) (leaves_from [] 0 ch)) as [|[q x] l]; [reflexivity|]. cbn [map hd_error nth_error snd].
  inversion C as [|? ? C1 _]; subst. cbn [snd] in C1. unfold cmtest in C1. unfold text_of. destruct (dat x); try discriminate C1. reflexivity.
Qed.

(* the text of a cluster *)
Lemma concat_app' l l' : String.concat "" (l ++ l') = (String.concat "" l ++ String.concat "" l')%string.
Proof.
  induction l as [|a l IH]; [reflexivity|]. destruct l as [|b l].
  - cbn [app]. destruct l' as [|c l']; cbn [String.concat]; [|reflexivity]. induction a as [|x a IHa]; [reflexivity|]. cbn. rewrite <- IHa. reflexivity.
  - cbn [app] in *. cbn [String.concat] in *. rewrite IH.
    assert (SA : forall x y z : string, (x ++ (y ++ z))%string = ((x ++ y) ++ z)%string) by (induction x as [|h x IHx]; intros; cbn; [reflexivity|rewrite IHx; reflexivity]).
    cbn [String.append]. rewrite !SA. reflexivity.
Qed.
Lemma inside_text a : forall p, cmavo_text_inside a = String.concat "" (map (fun e => bare_word (snd e)) (leaves p (bare a))).
Proof.
  induction a as [x b n|ty b n ch IH] using atree_induct; intro p.
  - cbn [cmavo_text_inside bare leaves map String.concat snd]. unfold bare_word, bystander. destruct (dat x); reflexivity.
  - cbn [cmavo_text_inside bare]. rewrite leaves_kids. generalize 0. induction IH as [|c l Hc Hl IHl]; intro i; [reflexivity|].
    cbn [map leaves_from]. rewrite map_app, concat_app', <- (Hc (p ++ [i])), <- (IHl (S i)).
    change (cmavo_text_inside c :: map cmavo_text_inside l) with ([cmavo_text_inside c] ++ map cmavo_text_inside l). rewrite concat_app'. reflexivity.
Qed.

Lemma obs_sub q : forall a s, asub a q = Some s -> obs a -> obs s.
Proof.
  induction q as [|i q IH]; intros a s A OB; [inversion A; subst; exact OB|].
  cbn [asub] in A. destruct a as [|ty0 b0 n0 cc]; [discriminate A|]. destruct (nth_error cc i) as [c|] eqn:N; [|discriminate A].
  apply obs_kids in OB. rewrite Forall_forall in OB. exact (IH c s A (OB c (nth_error_In _ _ N))).
Qed.

Section GROUPS.
  Variable translate : string -> option string.
  Variable adv_translate : string -> Z -> tctx -> outcome string.
  Variable translate_unknown : string -> Z -> tctx -> outcome (option string).
  Variable P : props.
  Variable rb : path -> bool.
  Variable t : tree.
  Hypothesis PT : parse_tree t.
  Let T := expand_bahe_ui t.
  Let top := add_bracketing_tags rb T.
  Let out := do_output translate adv_translate translate_unknown P top.
  Notation text := (fun e : path * node => written (p_elidable P (fst e)) (snd e)).
  Notation outi := (output_internal translate adv_translate translate_unknown P top).
  Notation outs := (OutProofs.outs translate adv_translate translate_unknown P top).

  Notation then_says := (OutSpec.then_says P T).

  Lemma kid_words f m p ch cs : Forall obs ch -> lojban m = true -> in_turn (outs f m p 0 ch) = Ok cs ->
    shown_words cs = map text (leaves_from p 0 (map bare ch)).
  Proof.
    intros O M. generalize 0. revert cs. induction O as [|c l Oc Ol IH]; intros cs i H; cbn [OutProofs.outs in_turn] in H; [inversion H; reflexivity|].
    oinv H. oinv H. inversion H; subst. cbn [map leaves_from]. rewrite shown_app, map_app, (IH _ _ E0).
    rewrite (node_words translate adv_translate translate_unknown P top f m _ _ _ Oc M E). reflexivity.
  Qed.

  Lemma group_calls cs q ty ch gl : out = Ok cs -> subtree T q = Some (NT ty ch) -> by_itself T q ->
    (forall f b n ch' r, map bare ch' = ch -> Forall obs ch' -> outi f SHOW_BOTH q (ANT ty b n ch') = Ok r ->
       exists a tl, in_turn (outs f SHOW_LOJBAN_AND_INDICATORS q 0 ch') = Ok a /\ r = Open b n :: a ++ gl ++ tl /\ shown_words tl = []) ->
    shown_words gl = [] -> then_says cs q (NT ty ch) gl.
  Proof.
    intros H E B G GN. pose proof (out_words translate adv_translate translate_unknown P rb t PT cs H) as OW.
    rewrite <- (bare_tags rb T) in E, B. destruct (subtree_asub _ _ _ E) as ([y b n|ty' b n ch'] & A & Q); inversion Q; subst ty'.
    pose proof (parse_obs rb t PT) as OB. fold T in OB.
    destruct (own_gloss translate adv_translate translate_unknown P top 2 top OB [] q (ANT ty b n ch') cs H A B)
      as (pre & r & post & L1 & L2 & R & -> & LV & SW). cbn [app] in R, LV. unfold top in LV at 1. rewrite bare_tags in LV.
    assert (OC : obs (ANT ty b n ch')).
    { exact (obs_sub q top _ A OB). }
    apply obs_kids in OC. destruct (G 2 b n ch' r H2 OC R) as (a & tl & KA & -> & ST).
    rewrite ?H2. exists (pre ++ [Open b n]), a, (tl ++ post), L1, L2.
    assert (KW := kid_words 2 SHOW_LOJBAN_AND_INDICATORS q ch' a OC eq_refl KA). rewrite H2, <- leaves_kids with (ty := ty) in KW.
    cbn [bare] in LV. rewrite H2 in LV.
    split; [rewrite <- !app_assoc; cbn [app]; rewrite <- !app_assoc; reflexivity|]. split; [exact LV|].
    split; [rewrite shown_app, SW; cbn [shown_words flat_map]; apply app_nil_r|]. split; [exact KW|].
    fold T in OW. rewrite LV in OW. rewrite !shown_app in OW. change (shown_words (Open b n :: a ++ gl ++ tl)) with (shown_words (a ++ gl ++ tl)) in OW.
    rewrite !shown_app, GN, ST, !map_app, SW, KW in OW. cbn [app] in OW. rewrite app_nil_r in OW.
    apply app_inv_head in OW. apply app_inv_head in OW. rewrite shown_app, ST. exact OW.
  Qed.

  Theorem out_connective cs q ty ch pos pat : out = Ok cs -> subtree T q = Some (NT ty ch) -> by_itself T q -> In ty connective_kinds ->
    p_connective P q = Some (Logical pos pat) -> then_says cs q (NT ty ch) (said (translate (pat ++ stands pos))).
  Proof.
    intros H E B K C. apply (group_calls cs q ty ch _ H E B); [|destruct (translate _); reflexivity].
    intros f b n ch' r M O R. rewrite outi_nt in R. unfold output_node in R. oinv R. cbn [lojban] in R. inversion R; subst.
    unfold output_inside in E0.
    assert (E1 : output_connective translate P (jump translate adv_translate translate_unknown P top f) (fun m => outs f m q 0 ch') SHOW_BOTH q = Ok a).
    { clear - E0 K. unfold connective_kinds in K. cbn [In] in K. repeat (destruct K as [<-|K]; [exact E0|]). contradiction. }
    unfold output_connective in E1. cbn [lojban english orb] in E1. oinv E1. oinv E1. inversion E1; subst. rewrite C in E3. oinv E3. inversion E3; subst.
    exists a0, [Close b n]. split; [exact E2|]. split; [|reflexivity]. rewrite <- app_assoc. f_equal. f_equal. f_equal.
    destruct pos; inversion E4; subst; cbn [stands]; destruct (translate _); reflexivity.
  Qed.

  Theorem out_tense cs q ch : out = Ok cs -> subtree T q = Some (NT "TIME_OFFSET" ch) -> by_itself T q ->
    then_says cs q (NT "TIME_OFFSET" ch) (gloss_call (tense_gloss translate P q (NT "TIME_OFFSET" ch))).
  Proof.
    intros H E B. apply (group_calls cs q _ ch _ H E B); [|destruct (tense_gloss _ _ _ _); reflexivity].
    intros f b n ch' r M O R. rewrite outi_nt in R. unfold output_node in R. oinv R. cbn [lojban] in R. inversion R; subst.
    unfold output_inside in E0. cbn [String.eqb Ascii.eqb Bool.eqb andb] in E0. unfold output_simple_time_offset in E0. cbn [lojban english] in E0.
    oinv E0. oinv E0. inversion E0; subst. exists a1, [Eols (p_eols P q); Close b n]. split; [exact E2|]. split; [|reflexivity].
    rewrite <- !app_assoc, <- say_gloss. cbn [app]. f_equal. f_equal. f_equal. f_equal.
    destruct (parsed_prod _ _ (node_parsed t q _ _ PT E ltac:(discriminate)) ltac:(discriminate)) as (ss & IS & F).
    assert (R1 : forallb (fun ss => forallb (fun y => match y with ST _ => true | _ => false end) ss && firm T_PU ss && Nat.eqb (count T_PU ss) 1) (alternatives "TIME_OFFSET") = true) by (vm_compute; reflexivity).
    apply (alts _ _ R1) in IS. apply andb_true_iff in IS. destruct IS as [IS R2]. apply andb_true_iff in IS. destruct IS as [R3 R4]. apply Nat.eqb_eq in R2.
    destruct (cands_count T_PU ss _ eq_refl F R4) as [L _]. rewrite R2 in L.
    unfold translate_time_offset in E1. cbn zeta in E1. unfold tense_gloss. cbn zeta.
    rewrite (first_of_candidates ss _ "TIME_OFFSET" T_PU F R3 eq_refl), (first_of_candidates ss _ "TIME_OFFSET" T_NAI F R3 eq_refl),
      (first_of_candidates ss _ "TIME_OFFSET" T_ZI F R3 eq_refl).
    assert (FP : exists pu, find_nth_cmavo_child (map bare ch') 1 T_PU = Some pu).
    { unfold find_nth_cmavo_child. destruct (cmavo_candidates (map bare ch') T_PU) as [|pu l]; [discriminate L|]. exists pu. reflexivity. }
    destruct FP as (pu & FP). rewrite FP in *. cbn [or_nothing].
    destruct (p_tense_ctx P q) as [c|] eqn:TC; [|inversion E1; reflexivity]. unfold translate_tense_in_context in E1. unfold in_situation. rewrite TC. cbn [entry].
    replace (situation c) with (ctx_ending c) by (destruct c; reflexivity).
    replace (or_nothing match find_nth_cmavo_child (map bare ch') 1 T_NAI with Some x => Some (text_of x) | None => None end)
      with (match find_nth_cmavo_child (map bare ch') 1 T_NAI with Some x => text_of x | None => "" end) by (destruct (find_nth_cmavo_child _ 1 T_NAI); reflexivity).
    replace (or_nothing match find_nth_cmavo_child (map bare ch') 1 T_ZI with Some x => Some (text_of x) | None => None end)
      with (match find_nth_cmavo_child (map bare ch') 1 T_ZI with Some x => text_of x | None => "" end) by (destruct (find_nth_cmavo_child _ 1 T_ZI); reflexivity).
    match type of E1 with context [translate (?l ++ ctx_ending c)%string] => set (loj := l) in * end.
    destruct (translate (loj ++ ctx_ending c)%string); [apply put_ok in E1; exact E1|].
    destruct (translate loj); apply put_ok in E1; subst a0; [reflexivity|].
    destruct (find_nth_cmavo_child _ 1 T_NAI), (find_nth_cmavo_child _ 1 T_ZI); reflexivity.
  Qed.

  Theorem out_cluster cs q ty ch e : out = Ok cs -> subtree T q = Some (NT ty ch) -> by_itself T q ->
    In ty ["SPACE_INT_PROP"; "INTERVAL_PROPERTY"; "NUMBER_MOI_TU2"] -> in_situation translate P q (run_together (NT ty ch)) = Some e ->
    then_says cs q (NT ty ch) [Eng e].
  Proof.
    intros H E B K S. apply (group_calls cs q ty ch _ H E B); [|reflexivity].
    intros f b n ch' r M O R. rewrite outi_nt in R. unfold output_node in R. oinv R. cbn [lojban] in R. inversion R; subst.
    unfold output_inside in E0.
    assert (E1 : output_clustered translate P (fun m => outs f m q 0 ch') SHOW_BOTH q (ANT ty b n ch') = Ok a).
    { clear - E0 K. cbn [In] in K. repeat (destruct K as [<-|K]; [exact E0|]). contradiction. }
    unfold output_clustered in E1. oinv E1. unfold get_cmavo_text_inside_node in E2. apply put_ok in E2. rewrite (inside_text (ANT ty b n ch') []) in E2.
    cbn [bare] in E2. change (String.concat "" _) with (run_together (NT ty (map bare ch'))) in E2. subst a0.
    unfold in_situation in S. cbn [entry] in S.
    replace (match p_tense_ctx P q with Some c => ctx_ending c | None => "" end) with (match p_tense_ctx P q with Some c => situation c | None => "" end) in E1
      by (destruct (p_tense_ctx P q) as [[]|]; reflexivity).
    assert (S' : match translate (run_together (NT ty (map bare ch')) ++ match p_tense_ctx P q with Some c => situation c | None => "" end)%string with
                 | Some t => Some t | None => translate (run_together (NT ty (map bare ch'))) end = Some e).
    { rewrite <- S. destruct (translate (_ ++ _)%string); [reflexivity|]. destruct (translate _); reflexivity. }
    cbn zeta in E1. rewrite S' in E1. oinv E1. apply put_ok in E2. subst a0. cbn [lojban english] in E1. oinv E1. inversion E1; subst.
    exists a0, [Close b n]. split; [exact E2|]. split; [|reflexivity]. rewrite <- app_assoc. reflexivity.
  Qed.
End GROUPS.
