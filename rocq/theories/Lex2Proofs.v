From Coq Require Import String List NArith Bool Arith Lia.
From Verif Require Import Base TokData CmavoData TokModel ErasureSpec ErasureProofs Lex2Spec.
Import ListNotations.
Open Scope list_scope.

(* ---------- cmavo table facts, by evaluation over the whole table ---------- *)
Definition sel_word_check (s : tok) (w : string) : bool :=
  forallb (fun c => match c with (i, w', s') => Bool.eqb (tok_eqb s' s) (String.eqb w' w) end) cmavo_cells.
Lemma sel_word s w : sel_word_check s w = true -> w <> ""%string ->
  forall code, cmavo_selmao code = Some s <-> cmavo_word code = w.
Proof.
  intros H Hw code. unfold sel_word_check in H. rewrite forallb_forall in H.
  unfold cmavo_selmao, cmavo_word, cmavo_cell.
  destruct (find _ cmavo_cells) as [[[i w'] s']|] eqn:E.
  - apply find_some in E. destruct E as [E _]. specialize (H _ E). cbn in H.
    apply eqb_prop in H. split; intro G.
    + injection G as ->. rewrite tok_eqb_refl in H. symmetry in H. apply String.eqb_eq in H. assumption.
    + subst w'. rewrite String.eqb_refl in H. apply tok_eqb_eq in H. congruence.
  - split; intro G; [discriminate|congruence].
Qed.
Lemma zo_sel code : cmavo_selmao code = Some T_ZO <-> cmavo_word code = "zo"%string.
Proof. apply sel_word; [vm_compute; reflexivity|discriminate]. Qed.
Lemma zei_sel code : cmavo_selmao code = Some T_ZEI <-> cmavo_word code = "zei"%string.
Proof. apply sel_word; [vm_compute; reflexivity|discriminate]. Qed.
Lemma nai_sel code : cmavo_selmao code = Some T_NAI <-> cmavo_word code = "nai"%string.
Proof. apply sel_word; [vm_compute; reflexivity|discriminate]. Qed.
Lemma bu_sel code : cmavo_selmao code = Some T_BU <-> cmavo_word code = "bu"%string.
Proof. apply sel_word; [vm_compute; reflexivity|discriminate]. Qed.
Lemma bahe_sel code : cmavo_selmao code = Some T_BAhE -> cmavo_word code <> ""%string.
Proof.
  unfold cmavo_selmao, cmavo_word, cmavo_cell.
  destruct (find _ cmavo_cells) as [[[i w'] s']|] eqn:E; [|discriminate].
  apply find_some in E. destruct E as [E _]. intros _.
  assert (H : forallb (fun c => match c with (_, w, _) => negb (String.eqb w "") end) cmavo_cells = true)
    by (vm_compute; reflexivity).
  rewrite forallb_forall in H. specialize (H _ E). cbn in H. apply negb_true_iff in H.
  apply String.eqb_neq in H. assumption.
Qed.

(* ---------- zo ---------- *)
Lemma is_zo_iff x : is_zo x = true <-> is_word "zo" x.
Proof.
  unfold is_zo, is_word. destruct (dat x) eqn:E; split; try discriminate;
    try (intros (s & c & f & H & _); discriminate H).
  - intro H. destruct (cmavo_selmao code) as [s|] eqn:Es; [|discriminate].
    apply tok_eqb_eq in H. subst s. apply zo_sel in Es. eauto.
  - intros (s & c & f & H & Hw). injection H as -> -> ->. apply zo_sel in Hw. rewrite Hw.
    apply tok_eqb_refl.
Qed.
Lemma is_zo_false x : is_zo x = false <-> ~ is_word "zo" x.
Proof. rewrite <- is_zo_iff. destruct (is_zo x); intuition congruence. Qed.
Lemma reads_iff y t : reads y t <-> zo_text y = Some t.
Proof.
  unfold zo_text. split.
  - intro H; inversion H as [? ? ? ? H1|? ? H1|? ? ? H1|? ? H1|? ? ? ? H1]; subst; rewrite H1; reflexivity.
  - destruct (dat y) eqn:E; try discriminate; intros [= <-]; econstructor; eassumption.
Qed.
Lemma omap_ok {A B} (f : A -> B) o b : omap f o = Ok b <-> exists a, o = Ok a /\ b = f a.
Proof.
  destruct o; cbn; split; try discriminate; try (intros (x & H & _); discriminate H).
  - intros [= <-]; eauto.
  - intros (x & [= <-] & ->); reflexivity.
Qed.
Lemma list_ind2 {A} (P : list A -> Prop) :
  P [] -> (forall x, P [x]) -> (forall x y l, P l -> P (y :: l) -> P (x :: y :: l)) -> forall l, P l.
Proof.
  intros H0 H1 H2 l. enough (H : P l /\ forall x, P (x :: l)) by tauto.
  induction l as [|x l [IH1 IH2]]; split; auto.
Qed.
Lemma handle_zo_ok l r : handle_zo l = Ok r <-> zo_spec l r.
Proof.
  revert r. induction l as [|x|x y l IH1 IH2] using list_ind2; intro r.
  - cbn. split; [intros [= <-]; constructor|inversion 1; reflexivity].
  - cbn [handle_zo]. destruct (is_zo x) eqn:E.
    + split; [discriminate|]. apply is_zo_iff in E. inversion 1; subst; contradiction.
    + apply is_zo_false in E. split.
      * cbn. intros [= <-]. constructor; auto. constructor.
      * inversion 1; subst. match goal with H : zo_spec [] _ |- _ => inversion H end. reflexivity.
  - destruct (is_zo x) eqn:E.
    + cbn [handle_zo]. rewrite E. apply is_zo_iff in E. destruct (zo_text y) as [t|] eqn:Et.
      * rewrite omap_ok. split.
        -- intros (a & Ha & ->). apply IH1 in Ha. constructor; auto. apply reads_iff; auto.
        -- inversion 1; subst; [contradiction|].
           match goal with H : reads y ?t' |- _ => apply reads_iff in H; rewrite Et in H; injection H as -> end.
           eexists. split; [|reflexivity]. apply IH1; auto.
      * split; [discriminate|]. inversion 1; subst; [contradiction|].
        match goal with H : reads y ?t' |- _ => apply reads_iff in H; congruence end.
    + change (handle_zo (x :: y :: l)) with
        (if is_zo x then match zo_text y with None => Abort | Some t => omap (cons (set_dat (N_ZO t) x)) (handle_zo l) end
         else omap (cons x) (handle_zo (y :: l))).
      rewrite E. apply is_zo_false in E. rewrite omap_ok. split.
      * intros (a & Ha & ->). constructor; auto. apply IH2; auto.
      * inversion 1; subst; [|contradiction]. eexists. split; [|reflexivity]. apply IH2; auto.
Qed.
(* lexer tokens can always be quoted, so the only failure is a dangling zo *)
Definition lexer_token (n : node) : Prop :=
  match dat n with
  | N_GARBAGE _ | N_CMAVO _ _ _ | N_ZOI _ _ _ | N_BRIVLA _ _ | N_CMENE _ => True
  | _ => False
  end.
Lemma lexer_token_zo_text n : lexer_token n -> zo_text n <> None.
Proof. unfold lexer_token, zo_text. destruct (dat n); try tauto; discriminate. Qed.
Lemma handle_zo_dangling l : Forall lexer_token l ->
  (exists r, zo_spec l r) \/
  (handle_zo l = Exit 1 /\ exists a z r, l = a ++ [z] /\ is_word "zo" z /\ zo_spec a r).
Proof.
  induction l as [|x|x y l IH1 IH2] using list_ind2; intro HF.
  - left; eexists; constructor.
  - destruct (is_zo x) eqn:E.
    + right. cbn. rewrite E. split; auto. apply is_zo_iff in E. exists [], x, []. repeat split; auto. constructor.
    + left. apply is_zo_false in E. eexists. constructor; auto. constructor.
  - inversion HF as [|? ? Hx HF1]; subst. inversion HF1 as [|? ? Hy HF2]; subst.
    destruct (is_zo x) eqn:E.
    + destruct (zo_text y) as [t|] eqn:Et; [|apply lexer_token_zo_text in Hy; congruence].
      destruct (IH1 HF2) as [(r & Hr)|(He & a & z & r & -> & Hz & Ha)].
      * left. eexists. apply is_zo_iff in E. eapply zs_quote; eauto. apply reads_iff; eauto.
      * right. split.
        -- cbn [handle_zo]. rewrite E, Et, He. reflexivity.
        -- apply is_zo_iff in E. exists (x :: y :: a), z. eexists. repeat split; auto.
           eapply zs_quote; eauto. apply reads_iff; eauto.
    + destruct (IH2 HF1) as [(r & Hr)|(He & a & z & r & Hl & Hz & Ha)].
      * left. eexists. apply is_zo_false in E. eapply zs_word; eauto.
      * right. split.
        -- change (handle_zo (x :: y :: l)) with
        (if is_zo x then match zo_text y with None => Abort | Some t => omap (cons (set_dat (N_ZO t) x)) (handle_zo l) end
         else omap (cons x) (handle_zo (y :: l))).
           rewrite E, He. reflexivity.
        -- apply is_zo_false in E. exists (x :: a), z, (x :: r). rewrite Hl. repeat split; auto.
           apply zs_word; auto.
Qed.

(* ---------- build_string_from_nodes ---------- *)
Lemma str_app_length a b : String.length (a ++ b)%string = String.length a + String.length b.
Proof. induction a; cbn; auto. Qed.
Lemma node_len_str y n s : node_len y = Some n -> node_str y = Some s -> String.length s = n.
Proof.
  unfold node_len, node_str. destruct (dat y); try discriminate; intros [= <-] [= <-]; try reflexivity.
  cbn [append String.length]. rewrite str_app_length. cbn. lia.
Qed.
Lemma nodes_len_cat l : forall n s, nodes_len l = Some n -> cat_nodes l = Some s -> String.length s = n.
Proof.
  induction l as [|y l IH]; intros n s Hn Hs.
  - cbn in *. injection Hn as <-. injection Hs as <-. reflexivity.
  - destruct l as [|y' l'].
    + cbn in Hn, Hs. eapply node_len_str; eauto.
    + cbn [nodes_len] in Hn. cbn [cat_nodes] in Hs.
      change (nodes_len (y' :: l')) with (nodes_len (y' :: l')) in Hn.
      destruct (node_len y) as [a|] eqn:Ha; [|discriminate].
      match type of Hn with match ?e with _ => _ end = _ => destruct e as [b|] eqn:Hb; [|discriminate] end.
      destruct (node_str y) as [sa|] eqn:Hsa; [|discriminate].
      match type of Hs with match ?e with _ => _ end = _ => destruct e as [sb|] eqn:Hsb; [|discriminate] end.
      injection Hn as <-. injection Hs as <-.
      rewrite !str_app_length. cbn [String.length]. rewrite (node_len_str _ _ _ Ha Hsa).
      rewrite (IH b sb Hb Hsb). lia.
Qed.
Lemma showable_str y : showable y -> node_str y = Some (shown y) /\ exists n, node_len y = Some n.
Proof. unfold showable, node_str, shown, node_len. destruct (dat y); try tauto; eauto. Qed.
Lemma not_showable y : ~ showable y -> node_len y = None /\ node_str y = None.
Proof. unfold showable, node_str, node_len. destruct (dat y); tauto. Qed.
Lemma concat_cons sep x l : l <> [] ->
  String.concat sep (x :: l) = (x ++ sep ++ String.concat sep l)%string.
Proof. destruct l; [congruence|reflexivity]. Qed.
Lemma build_string_ok l : Forall showable l -> l <> [] ->
  build_string_from_nodes l = Ok (spaced (map shown l)).
Proof.
  intros HF Hne.
  assert (Hn : exists n, nodes_len l = Some n).
  { clear Hne. induction l as [|y l IH]; [eexists; reflexivity|]. inversion HF; subst.
    destruct (IH ltac:(assumption)) as [n Hn]. destruct (showable_str y ltac:(assumption)) as [_ [m Hm]].
    destruct l; [exists m; exact Hm|]. eexists. cbn [nodes_len]. rewrite Hm. cbn [nodes_len] in Hn. rewrite Hn. reflexivity. }
  assert (Hs : cat_nodes l = Some (spaced (map shown l))).
  { clear Hn. induction l as [|y l IH]; [congruence|]. inversion HF; subst.
    destruct (showable_str y ltac:(assumption)) as [Hy _].
    destruct l as [|y' l']; [exact Hy|].
    change (cat_nodes (y :: y' :: l')) with
      (match node_str y, cat_nodes (y' :: l') with Some a, Some b => Some (a ++ " " ++ b)%string | _, _ => None end).
    rewrite Hy, IH by (auto; discriminate).
    unfold spaced. cbn [map]. rewrite (concat_cons " " (shown y)) by discriminate. reflexivity. }
  destruct Hn as [n Hn]. unfold build_string_from_nodes. rewrite Hn, Hs.
  rewrite (nodes_len_cat _ _ _ Hn Hs). replace (n + 1 <=? 1 + n)%nat with true; [reflexivity|].
  symmetry. apply Nat.leb_le. lia.
Qed.
(* the buffer computed in the first pass is always exactly big enough *)
Lemma build_string_no_ub l k : build_string_from_nodes l <> UB k.
Proof.
  unfold build_string_from_nodes. destruct (nodes_len l) eqn:Hn; [|discriminate].
  destruct (cat_nodes l) eqn:Hs; [|discriminate]. rewrite (nodes_len_cat _ _ _ Hn Hs).
  replace (n + 1 <=? 1 + n)%nat with true; [discriminate|]. symmetry. apply Nat.leb_le. lia.
Qed.

(* ---------- lo'u ---------- *)
Lemma split_lehu_some y q r : split_lehu y = Some (q, r) <->
  exists e, y = q ++ e :: r /\ Forall (fun n => ~ cmavo_of T_LEhU n) q /\ cmavo_of T_LEhU e.
Proof.
  revert q r. induction y as [|n y IH]; intros q r; cbn [split_lehu].
  - split; [discriminate|]. intros (e & H & _). destruct q; discriminate.
  - destruct (cmtest n T_LEhU) eqn:E.
    + apply cmtest_iff in E. split.
      * intros [= <- <-]. exists n. auto.
      * intros (e & H & HF & He). destruct q as [|n' q].
        -- cbn in H. injection H as -> ->. reflexivity.
        -- cbn in H. injection H as -> ->. inversion HF; subst. contradiction.
    + apply cmtest_false in E. destruct (split_lehu y) as [[q0 r0]|] eqn:Es.
      * split.
        -- intros [= <- <-]. destruct (proj1 (IH q0 r0) eq_refl) as (e & -> & HF & He).
           exists e. repeat split; auto.
        -- intros (e & H & HF & He). destruct q as [|n' q]; cbn in H; injection H as -> ->.
           ++ contradiction.
           ++ inversion HF; subst. assert (Some (q0, r0) = Some (q, r)) as [= -> ->].
              { apply IH. eauto. } reflexivity.
      * split; [discriminate|]. intros (e & H & HF & He). destruct q as [|n' q]; cbn in H; injection H as -> ->.
        -- contradiction.
        -- inversion HF; subst. exfalso. assert (None = Some (q, r)) by (apply IH; eauto). discriminate.
Qed.
Lemma split_lehu_none y : split_lehu y = None <-> Forall (fun n => ~ cmavo_of T_LEhU n) y.
Proof.
  induction y as [|n y IH]; cbn [split_lehu]; [split; auto|].
  destruct (cmtest n T_LEhU) eqn:E.
  - apply cmtest_iff in E. split; [discriminate|]. inversion 1; subst. contradiction.
  - apply cmtest_false in E. destruct (split_lehu y) as [[q r]|].
    + split; [discriminate|]. inversion 1 as [|? ? ? HFy]; subst. apply IH in HFy. discriminate.
    + split; auto. intros _. constructor; [assumption|]. apply IH; reflexivity.
Qed.
Lemma lohu_spec_quote x l r : lohu_spec (x :: l) r -> cmavo_of T_LOhU x ->
  exists q e l' r', l = q ++ e :: l' /\ q <> [] /\ Forall (fun y => ~ cmavo_of T_LEhU y) q /\
    cmavo_of T_LEhU e /\ lohu_spec l' r' /\
    r = set_dat (N_LOhU (spaced (map shown q))) x :: r'.
Proof. intros H Hx. inversion H; subst; [contradiction|]. do 4 eexists. repeat (split; [solve [eauto]|]). reflexivity. Qed.
Lemma lohu_loop_ok fuel : forall l r, length l < fuel -> Forall showable l ->
  (lohu_loop fuel l = Ok r <-> lohu_spec l r).
Proof.
  induction fuel as [|f IH]; intros l r Hf HF; [lia|]. cbn [lohu_loop].
  destruct l as [|x l].
  { split; [intros [= <-]; constructor|inversion 1; reflexivity]. }
  cbn [length] in Hf. inversion HF as [|? ? Hx HFl]; subst.
  destruct (cmtest x T_LOhU) eqn:E.
  - apply cmtest_iff in E. destruct (split_lehu l) as [[q rest]|] eqn:Es.
    + destruct q as [|n q].
      * split; [discriminate|]. intro H. inversion H as [|? ? ? Hno ?|? q e l' r' Hx' Hq HqF He Hr]; subst.
        -- contradiction.
        -- assert (split_lehu (q ++ e :: l') = Some (q, l')) as Hq' by (apply split_lehu_some; eauto).
           rewrite Es in Hq'. injection Hq' as <- <-. congruence.
      * destruct (proj1 (split_lehu_some _ _ _) Es) as (e & -> & HqF & He).
        apply Forall_app in HFl. destruct HFl as [HFq HFr]. inversion HFr; subst.
        rewrite build_string_ok by (auto; discriminate). cbn [obind].
        rewrite omap_ok. rewrite app_length in Hf. cbn [length] in Hf. split.
        -- intros (a & Ha & ->). apply IH in Ha; auto; [|lia].
           change ((n :: q) ++ e :: rest) with ((n :: q) ++ e :: rest).
           apply ls_quote; auto. discriminate.
        -- intro H. destruct (lohu_spec_quote _ _ _ H E) as (q' & e' & l' & r' & Heq & Hq & HqF' & He' & Hr & ->).
           rewrite Heq in Es.
           assert (split_lehu (q' ++ e' :: l') = Some (q', l')) as Hq' by (apply split_lehu_some; eauto).
           rewrite Hq' in Es. injection Es as -> ->.
           eexists. split; [|reflexivity]. apply IH; auto. lia.
    + split; [discriminate|]. apply split_lehu_none in Es. intro H.
      inversion H as [|? ? ? Hno ?|? q e l' r' Hx' Hq HqF He Hr]; subst; [contradiction|].
      apply Forall_app in Es. destruct Es as [_ Es]. inversion Es; subst. contradiction.
  - apply cmtest_false in E. rewrite omap_ok. split.
    + intros (a & Ha & ->). apply IH in Ha; auto; [|lia]. apply ls_word; auto.
    + intro H. inversion H; subst; [|contradiction]. eexists. split; [|reflexivity]. apply IH; auto. lia.
Qed.
Lemma handle_lohu_ok l r : Forall showable l -> (handle_lohu l = Ok r <-> lohu_spec l r).
Proof. intro HF. apply lohu_loop_ok; auto. Qed.

(* the two ways in which it fails *)
Lemma lohu_loop_cases fuel : forall l, length l < fuel -> Forall showable l ->
  (exists r, lohu_spec l r) \/
  (lohu_loop fuel l = Abort /\
     exists a x e b r, l = a ++ x :: e :: b /\ cmavo_of T_LOhU x /\ cmavo_of T_LEhU e /\ lohu_spec a r) \/
  (lohu_loop fuel l = Exit 1 /\
     exists a x b r, l = a ++ x :: b /\ cmavo_of T_LOhU x /\
                     Forall (fun n => ~ cmavo_of T_LEhU n) b /\ lohu_spec a r).
Proof.
  induction fuel as [|f IH]; intros l Hf HF; [lia|]. cbn [lohu_loop].
  destruct l as [|x l]; [left; eexists; constructor|].
  cbn [length] in Hf. inversion HF as [|? ? Hx HFl]; subst.
  destruct (cmtest x T_LOhU) eqn:E.
  - apply cmtest_iff in E. destruct (split_lehu l) as [[q rest]|] eqn:Es.
    + destruct (proj1 (split_lehu_some _ _ _) Es) as (e & Hl & HqF & He). subst l.
      destruct q as [|n q].
      * right; left. split; [reflexivity|]. exists [], x, e, rest, []. repeat split; auto. constructor.
      * apply Forall_app in HFl. destruct HFl as [HFq HFr]. inversion HFr; subst.
        rewrite build_string_ok by (auto; discriminate). cbn [obind].
        rewrite app_length in Hf. cbn [length] in Hf.
        destruct (IH rest) as [(r & Hr)|[(He1 & a & x' & e' & b & r & -> & K1 & K2 & K3)|(He1 & a & x' & b & r & -> & K1 & K2 & K3)]].
        -- lia.
        -- assumption.
        -- left. eexists. apply (ls_quote x (n :: q) e rest r); auto. discriminate.
        -- right; left. rewrite He1. split; [reflexivity|].
           exists (x :: (n :: q) ++ e :: a), x', e', b. eexists. repeat split; eauto.
           { cbn. rewrite <- app_assoc. reflexivity. }
           apply (ls_quote x (n :: q) e a r); auto. discriminate.
        -- right; right. rewrite He1. split; [reflexivity|].
           exists (x :: (n :: q) ++ e :: a), x', b. eexists. repeat split; eauto.
           { cbn. rewrite <- app_assoc. reflexivity. }
           apply (ls_quote x (n :: q) e a r); auto. discriminate.
    + right; right. split; [reflexivity|]. apply split_lehu_none in Es.
      exists [], x, l, []. repeat split; auto. constructor.
  - apply cmtest_false in E.
    destruct (IH l) as [(r & Hr)|[(He1 & a & x' & e' & b & r & -> & K1 & K2 & K3)|(He1 & a & x' & b & r & -> & K1 & K2 & K3)]].
    + lia.
    + assumption.
    + left. eexists. apply ls_word; eauto.
    + right; left. rewrite He1. split; [reflexivity|].
      exists (x :: a), x', e', b, (x :: r). repeat split; auto. apply ls_word; auto.
    + right; right. rewrite He1. split; [reflexivity|].
      exists (x :: a), x', b, (x :: r). repeat split; auto. apply ls_word; auto.
Qed.

(* ---------- bahe ---------- *)
Lemma spell_dat_only n : bare n ->
  spell n = spell (Node (dat n) (line n) (col n) None false None []).
Proof. destruct n; intros (Hb & Hn & Hc & Hu); cbn in *; subst. reflexivity. Qed.
Lemma dat_set_bahe b n : dat (set_bahe b n) = dat n.
Proof. destruct n; reflexivity. Qed.
Lemma cmtest_set_bahe b n t : cmtest (set_bahe b n) t = cmtest n t.
Proof. unfold cmtest. rewrite dat_set_bahe. reflexivity. Qed.
Lemma spell_set_bahe a n : bahe n = None -> spell (set_bahe (Some a) n) = spell a ++ spell n.
Proof. destruct n as [d ln cl b g k u]; cbn [bahe]; intros ->. cbn [set_bahe]. reflexivity. Qed.
Lemma bahe_loop_spell post : forall att,
  Forall (fun n => bahe n = None) post -> (att <> None -> post <> []) ->
  spell_all (bahe_loop att post) =
  match att with Some a => spell a | None => [] end ++ spell_all post.
Proof.
  induction post as [|x0 post IH]; intros att HF Hatt.
  - destruct att; [exfalso; apply Hatt; congruence|reflexivity].
  - inversion HF as [|? ? Hb HF']; subst. cbn [bahe_loop].
    set (x := match att with Some a => set_bahe (Some a) x0 | None => x0 end).
    assert (Hx : spell x = match att with Some a => spell a | None => [] end ++ spell x0).
    { unfold x. destruct att; [apply spell_set_bahe; assumption|reflexivity]. }
    assert (Hct : forall t, cmtest x t = cmtest x0 t).
    { intro t. unfold x. destruct att; [apply cmtest_set_bahe|reflexivity]. }
    rewrite Hct. unfold spell_all in *.
    destruct (cmtest x0 T_BAhE) eqn:E.
    + destruct post as [|y post'].
      * cbn. rewrite Hx. rewrite !app_nil_r. reflexivity.
      * destruct (cmtest y T_FAhO).
        -- cbn [flat_map]. rewrite Hx. rewrite IH by (auto; congruence). cbn [flat_map app].
           rewrite <- !app_assoc. reflexivity.
        -- rewrite IH by (auto; congruence). rewrite Hx. cbn [flat_map]. rewrite <- !app_assoc. reflexivity.
    + cbn [flat_map]. rewrite Hx, IH by (auto; congruence). cbn [flat_map app].
      rewrite <- !app_assoc. reflexivity.
Qed.
Lemma handle_bahe_spell l : Forall (fun n => bahe n = None) l ->
  spell_all (handle_bahe l) = spell_all l.
Proof. intro HF. unfold handle_bahe. rewrite bahe_loop_spell by (auto; congruence). reflexivity. Qed.

(* which words remain in the main stream, and that a ba'e remains there only
   at the end of the text or in front of fa'o *)
Lemma bahe_loop_stays post : forall att,
  forall a x b, bahe_loop att post = a ++ x :: b -> cmtest x T_BAhE = true ->
  b = [] \/ exists y b', b = y :: b' /\ cmtest y T_FAhO = true.
Proof.
  induction post as [|x0 post IH]; intros att a x b H Hx; cbn [bahe_loop] in H.
  - destruct a; discriminate.
  - set (x1 := match att with Some a => set_bahe (Some a) x0 | None => x0 end) in *.
    destruct (cmtest x1 T_BAhE) eqn:E.
    + destruct post as [|y post'].
      * destruct a as [|? [|]]; cbn in H; try discriminate. injection H as -> <-. auto.
      * destruct (cmtest y T_FAhO) eqn:Ey.
        -- destruct a as [|a0 a]; cbn [app] in H.
           ++ injection H as -> Hb. right. cbn [bahe_loop] in Hb.
              assert (Hyb : cmtest y T_BAhE = false).
              { apply cmtest_iff in Ey. destruct Ey as (c & f & Hd). unfold cmtest. rewrite Hd. reflexivity. }
              rewrite Hyb in Hb. eauto.
           ++ injection H as -> Hb. exact (IH None a x b Hb Hx).
        -- eapply IH; eauto.
    + destruct a as [|a0 a]; cbn [app] in H.
      * injection H as -> _. congruence.
      * injection H as -> Hb. eapply IH; eauto.
Qed.

(* the words of the main stream other than ba'e are exactly the same nodes, in the
   same order, apart from what is attached in front of them *)
Lemma bahe_loop_main post : forall att,
  map dat (filter (fun n => negb (cmtest n T_BAhE)) (bahe_loop att post)) =
  map dat (filter (fun n => negb (cmtest n T_BAhE)) post).
Proof.
  induction post as [|x0 post IH]; intro att; [reflexivity|]. cbn [bahe_loop].
  set (x1 := match att with Some a => set_bahe (Some a) x0 | None => x0 end) in *.
  assert (Hct : cmtest x1 T_BAhE = cmtest x0 T_BAhE).
  { unfold x1. destruct att; [apply cmtest_set_bahe|reflexivity]. }
  assert (Hd : dat x1 = dat x0).
  { unfold x1. destruct att; [apply dat_set_bahe|reflexivity]. }
  cbn [filter]. destruct (cmtest x0 T_BAhE) eqn:E; rewrite Hct; cbn [negb].
  - destruct post as [|y post'].
    + cbn [filter]. rewrite Hct. reflexivity.
    + destruct (cmtest y T_FAhO).
      * cbn [filter]. rewrite Hct. cbn [negb]. apply IH.
      * apply IH.
  - cbn [filter]. rewrite Hct. cbn [negb map]. rewrite Hd, IH. reflexivity.
Qed.

(* ---------- bu ---------- *)
Lemma bu_word_ok y : (forall t, dat y <> N_MARKER t) -> bu_word y = Ok (letteral_text y).
Proof.
  intro H. unfold bu_word, letteral_text.
  destruct (dat y) eqn:E; try reflexivity.
  - congruence.
  - replace (String.length ("zo" ++ text)%string + 1 <=? String.length text + 3)%nat with true; [reflexivity|].
    symmetry; apply Nat.leb_le. cbn. lia.
  - replace (String.length ("lo'u-" ++ text ++ "-le'u")%string + 1 <=? String.length text + 11)%nat with true; [reflexivity|].
    symmetry; apply Nat.leb_le. rewrite !str_app_length. cbn. lia.
  - unfold build_string_from_node. rewrite build_string_ok.
    + cbn. unfold shown. rewrite E. reflexivity.
    + constructor; [|constructor]. unfold showable. rewrite E. exact I.
    + discriminate.
  - replace (String.length (w ++ ".bu")%string + 1 <=? String.length w + 4)%nat with true; [reflexivity|].
    symmetry; apply Nat.leb_le. rewrite !str_app_length. cbn. lia.
Qed.
Lemma letteral_text_bu w n : letteral_text (set_dat (N_BU w) n) = (w ++ ".bu")%string.
Proof. unfold letteral_text. rewrite dat_set_dat. reflexivity. Qed.

Lemma last_cons {A} (l : list A) x d : last (x :: l) d = last l x.
Proof. revert x d. induction l as [|y l IH]; intros x d; [reflexivity|]. cbn [last] in *. destruct l; auto. Qed.

(* a run of bu words consumed one at a time *)
Lemma bu_run bs : forall k b x pre post,
  Forall (cmavo_of T_BU) bs ->
  bu_loop (set_dat (N_BU (dotbu k (letteral_text x))) b :: pre) (bs ++ post) =
  bu_loop (set_dat (N_BU (dotbu (k + length bs) (letteral_text x))) (last bs b) :: pre) post.
Proof.
  induction bs as [|b' bs IH]; intros k b x pre post HF.
  - cbn [app last length]. replace (k + 0) with k by lia. reflexivity.
  - inversion HF; subst. cbn [app bu_loop].
    replace (cmtest b' T_BU) with true by (symmetry; apply cmtest_iff; auto).
    rewrite bu_word_ok by (intro t; rewrite dat_set_dat; discriminate).
    cbn [obind]. rewrite letteral_text_bu.
    change (dotbu k (letteral_text x) ++ ".bu")%string with (dotbu (S k) (letteral_text x)).
    rewrite IH by assumption. rewrite last_cons.
    replace (k + length (b' :: bs)) with (S k + length bs) by (cbn; lia). reflexivity.
Qed.
Definition unmarked (n : node) : Prop := forall t, dat n <> N_MARKER t.
Lemma bu_loop_spec l r : bu_spec l r -> Forall unmarked l -> forall pre,
  (forall y p, pre = y :: p -> forall t, dat y <> N_MARKER t) ->
  bu_loop pre l = Ok (rev pre ++ r).
Proof.
  intros H. induction H as [|x bs l r Hx HF Hhd Hsp IH]; intros HU pre Hpre.
  - cbn. rewrite app_nil_r. reflexivity.
  - cbn [bu_loop]. replace (cmtest x T_BU) with false by (symmetry; apply cmtest_false; auto).
    inversion HU as [|? ? Ux HU']; subst. apply Forall_app in HU'. destruct HU' as [_ HUl].
    destruct bs as [|b bs].
    + cbn [app bu_item]. rewrite IH; auto.
      * cbn [rev]. rewrite <- app_assoc. reflexivity.
      * intros y p [= <- <-]. exact Ux.
    + inversion HF; subst. cbn [app bu_loop].
      replace (cmtest b T_BU) with true by (symmetry; apply cmtest_iff; auto).
      rewrite bu_word_ok by exact Ux. cbn [obind].
      change (letteral_text x) with (dotbu 0 (letteral_text x)) at 1.
      rewrite bu_run by assumption. cbn [plus]. rewrite IH; auto.
      * cbn [rev bu_item]. rewrite last_cons, <- app_assoc. reflexivity.
      * intros y p [= <- <-] t. rewrite dat_set_dat. discriminate.
Qed.
(* every text that does not start with bu has a reading *)
Lemma bu_span l : exists bs l', l = bs ++ l' /\ Forall (cmavo_of T_BU) bs /\
  (forall y l'', l' = y :: l'' -> ~ cmavo_of T_BU y).
Proof.
  induction l as [|x l (bs & l' & -> & HF & Hh)].
  - exists [], []. repeat split; auto. discriminate.
  - destruct (cmtest x T_BU) eqn:E.
    + exists (x :: bs), l'. repeat split; auto. constructor; auto. apply cmtest_iff; auto.
    + exists [], (x :: bs ++ l'). repeat split; auto. intros y l'' [= <- <-]. apply cmtest_false; auto.
Qed.
Lemma bu_spec_total l : (forall y l', l = y :: l' -> ~ cmavo_of T_BU y) -> exists r, bu_spec l r.
Proof.
  remember (length l) as n eqn:Hn. revert l Hn. induction n as [n IH] using lt_wf_ind. intros l Hn Hh.
  destruct l as [|x l]; [eexists; constructor|].
  destruct (bu_span l) as (bs & l' & -> & HF & Hh').
  destruct (IH (length l')) with (l := l') as [r Hr].
  - cbn [length] in Hn. rewrite app_length in Hn. lia.
  - reflexivity.
  - assumption.
  - eexists. apply bs_item; eauto.
Qed.
Lemma handle_bu_ok l r : Forall unmarked l -> bu_spec l r -> handle_bu l = Ok r.
Proof. intros HU H. unfold handle_bu. rewrite (bu_loop_spec l r H HU []); [reflexivity|discriminate]. Qed.
Lemma handle_bu_abort x l : cmavo_of T_BU x -> handle_bu (x :: l) = Abort.
Proof.
  intro H. unfold handle_bu. cbn [bu_loop].
  replace (cmtest x T_BU) with true by (symmetry; apply cmtest_iff; auto). reflexivity.
Qed.
