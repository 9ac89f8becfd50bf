(* The walk of terms.c: what is done below a selbri. *)
From Coq Require Import String List NArith ZArith Bool Arith Lia.
From Verif Require Import Base TokData CmavoData TokModel StreamModel TreeModel TreeOutModel GrammarData GramModel GramSpec GramProofs PassProofs2
  ConvSpec ConvProofs2 ErasureProofs TermsModel TermsSpec WalkModel WalkSpec WalkProofs.
From Verif Require OutModel PassModel.
Import OutModel(term_tag, TTT_BRIVLA, TTT_JAITAG, TTT_ABSTRACTION, TTT_ME, TTT_NUMBERMOI, TTT_GOhA, TTT_NUhA, TTT_ZEI).
Import ListNotations.
Open Scope string_scope.
Open Scope list_scope.

Definition sons (l : list (string * string)) (k : string) : list string :=
  flat_map (fun e => if String.eqb (fst e) k then [snd e] else []) l.
Lemma sons_in l k k' : In (k, k') l <-> In k' (sons l k).
Proof.
  unfold sons. rewrite in_flat_map. split.
  - intro I. exists (k, k'). split; [exact I |]. cbn [fst snd]. rewrite String.eqb_refl. left. reflexivity.
  - intros ([a b] & I & J). cbn [fst snd] in J. destruct (String.eqb_spec a k) as [->|_]; [| destruct J].
    destruct J as [->|[]]. exact I.
Qed.

Section HEADS.
  Variable T : tree.
  Hypothesis PT : parsed T.
  Hypothesis CT : is_nt "CHUNKS" T = true.

  (* what is done at one node *)
  (* When places cannot be given, or no conversion, everything belongs: so that it is a finite list
     that is told to be the effects means that they could be given. *)
  Inductive own : path -> args -> effect -> Prop :=
  | own_done p ch a : subtree T p = Some (NT "TANRU_UNIT_1" ch) -> own p a (Done p)
  | own_jai p i a : kid T p "JAI_TAG_TU2" i "TANRU_UNIT_2" -> own p a (Brackets (p ++ [i]))
  | own_place p pre post lc mk conv e : names T p mk conv -> (forall es, give_places pre post lc mk = Ok es -> In e es) -> own p (pre, post, lc) e
  | own_conv p pre post lc mk x e : names T p mk (Some x) -> (forall es, give_conversion lc x = Ok es -> In e es) -> own p (pre, post, lc) e
  | own_me p x a : names T p (TTT_ME x) None -> own p a (Brackets x)
  | own_nuha p x c a : names T p (TTT_NUhA x) c -> own p a (Brackets x)
  | own_moi p x y pre post lc : names T p (TTT_NUMBERMOI x y) None -> pre <> [] \/ post <> [] -> own p (pre, post, lc) (Brackets x).
  Definition W (p : path) (a : args) (e : effect) : Prop := exists q b, down T p a q b /\ own q b e.

  Lemma W_unfold p a e : W p a e <-> own p a e \/ exists i b, step T p a i b /\ W (p ++ [i]) b e.
  Proof.
    split.
    - intros (q & b & D & O). inversion D as [|? ? i c ? ? S1 D1]; subst; [left; exact O |]. right. exists i, c. split; [exact S1 |].
      exists q, b. split; assumption.
    - intros [O|(i & b & S1 & q & c & D & O)]; [exists p, a; split; [constructor | exact O] |].
      exists q, c. split; [econstructor; eassumption | exact O].
  Qed.

  Lemma names_tu2 p mk c : names T p mk c -> exists ch, subtree T p = Some (NT "TANRU_UNIT_2" ch).
  Proof. intro N. destruct N; eauto. Qed.
  Lemma own_kind p a e k ch : own p a e -> subtree T p = Some (NT k ch) -> k = "TANRU_UNIT_1" \/ k = "JAI_TAG_TU2" \/ k = "TANRU_UNIT_2".
  Proof.
    intros O E. destruct O as [? ? ? E'|? ? ? (c1 & c2 & E' & _)|? ? ? ? ? ? ? N|? ? ? ? ? ? ? N|? ? ? N|? ? ? ? N|? ? ? ? ? ? N];
      try (destruct (names_tu2 _ _ _ N) as (c1 & E')); rewrite E in E'; injection E' as -> _; auto.
  Qed.

  (* ---------- steps ---------- *)

  Definition plain (k : string) : bool :=
    has k ["SELBRI"; "SELBRI_1"; "SELBRI_3"; "SELBRI_4"; "KE_SELBRI_3"; "SELBRI_5"; "KE_SELBRI3_TU2"; "NAHE_TU2"; "TANRU_UNIT_2"].
  Lemma step_plain p a i b k ch : subtree T p = Some (NT k ch) -> plain k = true ->
    (step T p a i b <-> b = a /\ exists k' cc, nth_error ch i = Some (NT k' cc) /\ In k' (sons heads k)).
  Proof.
    intros E PL. split.
    - intro ST. destruct ST as [p k0 i k' a (c1 & c2 & E1 & E2) I|p k0 k' cc a E1 I|p i j pre post lc (c1 & c2 & E1 & E2) _ _|p j pre post lc (c1 & c2 & E1 & E2)
        |p c la pre post lc E1|p c rest i r x n pre post lc E1 _ _ _|p i pre post lc (c1 & c2 & E1 & E2)|p i j pre post lc (c1 & c2 & E1 & E2) _];
        rewrite E in E1; injection E1 as -> ->; try discriminate PL.
      + split; [reflexivity |]. exists k', c2. split; [exact E2 |]. apply sons_in. exact I.
      + exfalso. cbn [alone In] in I. destruct I as [I|[I|[I|[I|[]]]]]; injection I as <- _; discriminate PL.
    - intros (-> & k' & cc & N & I). eapply s_head; [exists ch, cc; split; eassumption | apply sons_in; exact I].
  Qed.
  Lemma W_plain p a e k ch : subtree T p = Some (NT k ch) -> plain k = true -> k <> "TANRU_UNIT_2" ->
    (W p a e <-> exists i k' cc, nth_error ch i = Some (NT k' cc) /\ In k' (sons heads k) /\ W (p ++ [i]) a e).
  Proof.
    intros E PL NT2. rewrite W_unfold. split.
    - intros [O|(i & b & ST & Q)].
      + exfalso. destruct (own_kind _ _ _ _ _ O E) as [->|[->|H]]; [discriminate PL | discriminate PL | contradiction].
      + apply (step_plain _ _ _ _ _ _ E PL) in ST. destruct ST as (-> & k' & cc & N & I). eauto 8.
    - intros (i & k' & cc & N & I & Q). right. exists i, a. split; [| exact Q]. apply (step_plain _ _ _ _ _ _ E PL). eauto 6.
  Qed.

  Definition right (F : here -> list term -> list term -> chain -> outcome (list effect)) (K : string) : Prop :=
    forall (p : list nat) ch pre post lc es, sits T (p, NT K ch) -> F (p, NT K ch) pre post lc = Ok es -> forall e, In e es <-> W p (pre, post, lc) e.

  (* a plain node with one way down *)
  Lemma W_one p a e k ch K i cc : subtree T p = Some (NT k ch) -> plain k = true -> k <> "TANRU_UNIT_2" -> sons heads k = [K] -> only K ch i cc ->
    (W p a e <-> W (p ++ [i]) a e).
  Proof.
    intros E PL N2 SO O. rewrite (W_plain _ _ _ _ _ E PL N2), SO. split.
    - intros (j & k' & c' & N & I & Q). destruct I as [<-|[]]. apply O in N. destruct N as [-> _]. exact Q.
    - intro Q. exists i, K, cc. split; [apply O; auto |]. split; [left; reflexivity | exact Q].
  Qed.

  (* ---------- the word of a tanru_unit_2 ---------- *)

  Definition unique (p : path) (mk0 : Z -> term_tag) (c0 : option path) : Prop :=
    forall mk c, names T p mk c <-> mk = mk0 /\ c = c0.
  Definition extra (mk0 : Z -> term_tag) (c0 : option path) (pre post : list term) (e : effect) : Prop :=
    (exists x, mk0 = TTT_ME x /\ c0 = None /\ e = Brackets x) \/ (exists x, mk0 = TTT_NUhA x /\ e = Brackets x) \/
    (exists x y, mk0 = TTT_NUMBERMOI x y /\ c0 = None /\ (pre <> [] \/ post <> []) /\ e = Brackets x).
  Lemma own_unique p ch mk0 c0 pre post lc e : subtree T p = Some (NT "TANRU_UNIT_2" ch) -> unique p mk0 c0 ->
    (own p (pre, post, lc) e <->
     (forall es, give_places pre post lc mk0 = Ok es -> In e es) \/
     (exists x, c0 = Some x /\ forall es, give_conversion lc x = Ok es -> In e es) \/ extra mk0 c0 pre post e).
  Proof.
    intros E U. split.
    - intro O. remember (pre, post, lc) as a eqn:EA.
      destruct O as [? ? ? E'|? ? ? (c1 & c2 & E' & _)|? ? ? ? ? ? ? N|? ? ? ? ? ? ? N|? ? ? N|? ? ? ? N|? ? ? ? ? ? N];
        try (rewrite E in E'; discriminate E'); apply U in N; destruct N as [NM NC]; try (injection EA as -> -> ->); subst.
      + left. eauto.
      + right. left. eauto 6.
      + right. right. left. eauto.
      + right. right. right. left. eauto.
      + right. right. right. right. eauto 8.
    - intros [G|[(x & -> & G)|[(x & -> & -> & ->)|[(x & -> & ->)|(x & y & -> & -> & D & ->)]]]].
      + eapply own_place; [apply U; split; reflexivity | exact G].
      + eapply own_conv; [apply U; split; reflexivity | exact G].
      + apply own_me. apply U. split; reflexivity.
      + eapply own_nuha. apply U. split; reflexivity.
      + eapply own_moi; [apply U; split; reflexivity | exact D].
  Qed.
  Lemma own_none p ch a e : subtree T p = Some (NT "TANRU_UNIT_2" ch) -> (forall mk c, ~ names T p mk c) -> ~ own p a e.
  Proof.
    intros E U O. destruct O as [? ? ? E'|? ? ? (c1 & c2 & E' & _)|? ? ? ? ? ? ? N|? ? ? ? ? ? ? N|? ? ? N|? ? ? ? N|? ? ? ? ? ? N];
        try (rewrite E in E'; discriminate E'); apply (U _ _ N).
  Qed.
  Lemma both_in pre post lc mk x es : give_both pre post lc mk x = Ok es ->
    forall e, In e es <-> (forall es, give_places pre post lc mk = Ok es -> In e es) \/ (exists x', Some x = Some x' /\ forall es, give_conversion lc x' = Ok es -> In e es).
  Proof.
    unfold give_both. intros G e. oinv G. oinv G. injection G as <-. rewrite in_app_iff. split.
    - intros [I|I]; [left; intros es Q; congruence | right; exists x; split; [reflexivity |]; intros es Q; congruence].
    - intros [G|(x' & X & G)]; [left; apply G; assumption | right; injection X as <-; apply G; assumption].
  Qed.

  Lemma name_fun (mk mk' : Z -> term_tag) : mk = mk' -> mk 0%Z = mk' 0%Z.
  Proof. intros ->. reflexivity. Qed.

  (* a tanru_unit_2 that is a word: no way down *)
  Definition word_kid (ss : list sym) : bool := forallb (fun s => match s with SN k => negb (has k ("NUMBER_MOI_TU2" :: "ABSTRACTION" :: sons heads "TANRU_UNIT_2")) | _ => true end) ss.
  Lemma no_kid ss ch K i cc : fitsx ss ch -> nth_error ch i = Some (NT K cc) -> K <> "AUGMENTED" -> existsb (is_SN K) ss = true.
  Proof.
    intros F N A. destruct (existsb (is_SN K) ss) eqn:X; [reflexivity |]. exfalso.
    destruct (find_no K ss [] "" ch A F) as [_ Q]; [| exact (Q _ _ N)].
    clear - X. induction ss as [|s ss IH]; cbn [existsb count] in *; [reflexivity |]. apply orb_false_iff in X. destruct X as [X1 X2].
    rewrite X1, (IH X2). reflexivity.
  Qed.
  Lemma W_word p a e ss ch : subtree T p = Some (NT "TANRU_UNIT_2" ch) -> fitsx ss ch -> word_kid ss = true -> (W p a e <-> own p a e).
  Proof.
    intros E F WK. rewrite W_unfold. split; [| auto]. intros [O|(i & b & ST & Q)]; [exact O |]. exfalso.
    apply (step_plain _ _ _ _ _ _ E eq_refl) in ST. destruct ST as (_ & k' & cc & N & I).
    assert (A : k' <> "AUGMENTED") by (intros ->; cbn in I; repeat (destruct I as [I|I]; [discriminate I |]); exact I).
    pose proof (no_kid _ _ _ _ _ F N A) as X. apply existsb_exists in X. destruct X as (s & IS & Y). destruct s as [k|t|t]; try discriminate Y.
    apply String.eqb_eq in Y. subst k. unfold word_kid in WK. rewrite forallb_forall in WK. specialize (WK _ IS). cbn beta iota in WK.
    apply negb_true_iff in WK. revert WK. unfold has. intro WK. assert (X : existsb (String.eqb k') ("NUMBER_MOI_TU2" :: "ABSTRACTION" :: sons heads "TANRU_UNIT_2") = true); [| congruence].
    apply existsb_exists. exists k'. split; [right; right; exact I | apply String.eqb_refl].
  Qed.

  Lemma names_word p c rest r x mk conv : subtree T p = Some (NT "TANRU_UNIT_2" (c :: rest)) -> word c = Some (r, x) ->
    (names T p mk conv <->
     match dat x with
     | N_BRIVLA _ _ => mk = TTT_BRIVLA (p ++ 0 :: r) /\ conv = Some (p ++ 0 :: r)
     | N_ZEI _ _ _ => mk = TTT_ZEI (p ++ 0 :: r) /\ conv = Some (p ++ 0 :: r)
     | N_CMAVO s _ _ =>
         if tok_eqb s T_GOhA then mk = TTT_GOhA (p ++ 0 :: r) /\ conv = Some (p ++ 0 :: r)
         else if tok_eqb s T_ME then exists i, kid T p "TANRU_UNIT_2" i "SUMTI" /\ mk = TTT_ME (p ++ [i]) /\ conv = None
         else if tok_eqb s T_NUhA then exists i, kid T p "TANRU_UNIT_2" i "MEX_OPERATOR" /\ mk = TTT_NUhA (p ++ [i]) /\ conv = Some (p ++ 0 :: r)
         else False
     | _ => False
     end).
  Proof.
    intros E Wd. split.
    - intro N. destruct N as [c' rest' r' x' w ty E' W' D|c' rest' r' x' a b t E' W' D|c' rest' r' x' E' [W' D]|c' rest' r' x' i E' [W' D] K|c' rest' r' x' i E' [W' D] K
        |rest' cc i c' r' x' E' N' [W' D]|rest' cc ccc c' r' x' E' [W' D]]; rewrite E in E'; injection E'; intros; subst; try discriminate Wd;
        rewrite Wd in W'; injection W' as <- <-; try (rewrite D; auto; fail);
        unfold cmtest in D; destruct (dat x); try discriminate D; apply tok_eqb_eq in D; subst; cbn [tok_eqb]; auto; eexists; eauto.
    - destruct (dat x) eqn:D; try (intros []; fail).
      all: try (intros [-> ->]; econstructor; eassumption).
      match goal with |- (if tok_eqb ?t _ then _ else _) -> _ => set (s := t) in *; clearbody s end.
      destruct (tok_eqb s T_GOhA) eqn:S1; [apply tok_eqb_eq in S1; subst s; intros [-> ->]; eapply n_goha; [exact E | split; [exact Wd | unfold cmtest; rewrite D; reflexivity]] |].
      destruct (tok_eqb s T_ME) eqn:S2; [apply tok_eqb_eq in S2; subst s; intros (i & K & -> & ->); eapply n_me; [exact E | split; [exact Wd | unfold cmtest; rewrite D; reflexivity] | exact K] |].
      destruct (tok_eqb s T_NUhA) eqn:S3; [apply tok_eqb_eq in S3; subst s; intros (i & K & -> & ->); eapply n_nuha; [exact E | split; [exact Wd | unfold cmtest; rewrite D; reflexivity] | exact K] |].
      intros [].
  Qed.

  Lemma word_tok t x s w q : is_word t x -> dat x = N_CMAVO s w q -> s = t.
  Proof.
    intros Wd D. pose proof (word_value _ _ Wd) as V. unfold value_of in V. rewrite D in V.
    match type of V with (if ?b then _ else _) = _ => destruct b; [discriminate V |] end. injection V as ->. reflexivity.
  Qed.

  Definition tu2_word (t : tok) (ss : list sym) : bool :=
    if word_kid ss then
      match t with T_BRIVLA | T_GOhA | T_ZEI => true | T_ME => Nat.eqb (count "SUMTI" ss) 1 | T_NUhA => Nat.eqb (count "MEX_OPERATOR" ss) 1 | _ => false end
    else false.
  Definition tu2_kinds : list string := ["KE_SELBRI3_TU2"; "NUMBER_MOI_TU2"; "SE_TU2"; "JAI_TAG_TU2"; "JAI_TU2"; "NAHE_TU2"; "ABSTRACTION"].
  Lemma tu2_shape : forallb (fun ss => match ss with [SN k] => has k tu2_kinds | ST t :: ss => tu2_word t ss | _ => false end) (alternatives "TANRU_UNIT_2") = true.
  Proof. vm_compute. reflexivity. Qed.

  Lemma nuha_brackets (x : path) c0 pre post e : extra (TTT_NUhA x) c0 pre post e <-> e = Brackets x.
  Proof.
    unfold extra. split; [| eauto].
    intros [(y & Q & _)|[(y & Q & ->)|(y & z & Q & _)]]; apply name_fun in Q; [discriminate Q | injection Q as ->; reflexivity | discriminate Q].
  Qed.
  Lemma me_brackets (x : path) pre post e : extra (TTT_ME x) None pre post e <-> e = Brackets x.
  Proof.
    unfold extra. split; [| eauto].
    intros [(y & Q & _ & ->)|[(y & Q & _)|(y & z & Q & _)]]; apply name_fun in Q; [injection Q as ->; reflexivity | discriminate Q | discriminate Q].
  Qed.
  Lemma moi_brackets (x y : path) pre post e : extra (TTT_NUMBERMOI x y) None pre post e <-> (pre <> [] \/ post <> []) /\ e = Brackets x.
  Proof.
    unfold extra. split; [| intros [D ->]; right; right; eauto 8].
    intros [(u & Q & _)|[(u & Q & _)|(u & v & Q & _ & D & ->)]]; apply name_fun in Q; [discriminate Q | discriminate Q |].
    injection Q as -> ->. auto.
  Qed.
  Lemma no_extra mk c0 pre post e : (forall x, mk <> TTT_ME x) -> (forall x, mk <> TTT_NUhA x) -> (forall x y, mk <> TTT_NUMBERMOI x y) ->
    ~ extra mk c0 pre post e.
  Proof. intros A B C [(x & -> & _)|[(x & -> & _)|(x & y & -> & _)]]; [eapply A | eapply B | eapply C]; reflexivity. Qed.
  Ltac noext := intros; let Q := fresh in intro Q; apply name_fun in Q; discriminate Q.
  Lemma both_unique p ch mk x pre post lc es : subtree T p = Some (NT "TANRU_UNIT_2" ch) -> unique p mk (Some x) ->
    (forall x, mk <> TTT_ME x) -> (forall x, mk <> TTT_NUhA x) -> (forall x y, mk <> TTT_NUMBERMOI x y) ->
    give_both pre post lc mk x = Ok es -> forall e, In e es <-> own p (pre, post, lc) e.
  Proof.
    intros E U A B C G e. rewrite (own_unique _ _ _ _ _ _ _ _ E U), (both_in _ _ _ _ _ _ G). pose proof (no_extra mk (Some x) pre post e A B C). tauto.
  Qed.

  Lemma only_kid (p : list nat) k ch K i cc : subtree T p = Some (NT k ch) -> only K ch i cc -> forall j, kid T p k j K <-> j = i.
  Proof.
    intros E O j. split.
    - intros (c1 & c2 & E1 & N). rewrite E in E1. injection E1 as <-. apply O in N. apply N.
    - intros ->. exists ch, cc. split; [exact E | apply O; auto].
  Qed.
  Lemma fitsx_cons_word t ss ch : fitsx (ST t :: ss) ch -> exists c rest, ch = c :: rest /\ wordlike t c /\ fitsx ss rest.
  Proof. intro F. inversion F; subst. eauto. Qed.

  Lemma tu2_word_ok f (p : list nat) t ss ch pre post lc es : sits T (p, NT "TANRU_UNIT_2" ch) -> fitsx (ST t :: ss) ch -> tu2_word t ss = true ->
    tu2_args (S f) (p, NT "TANRU_UNIT_2" ch) pre post lc = Ok es -> forall e, In e es <-> W p (pre, post, lc) e.
  Proof.
    intros SI F SH R e. unfold tu2_word in SH. destruct (word_kid ss) eqn:WK; [| discriminate SH].
    assert (E : subtree T p = Some (NT "TANRU_UNIT_2" ch)) by exact SI.
    rewrite (W_word _ _ _ (ST t :: ss) ch E F WK).
    destruct (fitsx_cons_word _ _ _ F) as (c & rest & -> & Wd & _).
    assert (NB : t <> T_BAhE) by (intros ->; discriminate SH).
    destruct (strip_word _ _ Wd NB) as (r & x & WX & IW & STR & _).
    change (tu2_args (S f) (p, NT "TANRU_UNIT_2" (c :: rest)) pre post lc) with
      (do c1 <- stripped (p ++ [0], c);
       match snd c1 with
       | Leaf x =>
          match dat x with
          | N_CMAVO T_GOhA _ _ => give_both pre post lc (TTT_GOhA (fst c1)) (fst c1)
          | N_CMAVO T_ME _ _ =>
              do s <- find_child (p, NT "TANRU_UNIT_2" (c :: rest)) 1 "SUMTI"; do s <- asserted s;
              do a <- give_places pre post lc (TTT_ME (fst s)); Ok (Brackets (fst s) :: a)
          | N_CMAVO T_NUhA _ _ =>
              do m <- find_child (p, NT "TANRU_UNIT_2" (c :: rest)) 1 "MEX_OPERATOR"; do m <- deref m;
              do a <- give_both pre post lc (TTT_NUhA (fst m)) (fst c1); Ok (a ++ [Brackets (fst m)])
          | N_CMAVO _ _ _ => Ok []
          | N_BRIVLA _ _ => give_both pre post lc (TTT_BRIVLA (fst c1)) (fst c1)
          | N_ZEI _ _ _ => give_both pre post lc (TTT_ZEI (fst c1)) (fst c1)
          | _ => Abort
          end
       | NT ty ch =>
          if String.eqb ty "NUMBER_MOI_TU2" then
            do norl <- child_ref c1 0;
            match PassModel.cmavo_child 0 ch T_MOI with
            | None => UB UB_null
            | Some r =>
                do a <- give_places pre post lc (TTT_NUMBERMOI (fst norl) (fst c1 ++ r));
                Ok (a ++ match pre, post with [], [] => [] | _, _ => [Brackets (fst norl)] end)
            end
          else if String.eqb ty "KE_SELBRI3_TU2" then
            do s <- find_child c1 1 "SELBRI_3"; do s <- asserted s; selbri_3_args f s pre post lc
          else if String.eqb ty "SE_TU2" then
            do se <- child_ref c1 0;
            do t <- find_child c1 1 "TANRU_UNIT_2"; do t <- asserted t;
            do conv <- recover_se_conv se;
            do lc <- append lc (LC_SE conv) (fst se); tu2_args f t pre post lc
          else if String.eqb ty "JAI_TAG_TU2" then
            do ctag <- find_child c1 1 "TAG";
            do t <- find_child c1 1 "TANRU_UNIT_2"; do ctag <- asserted ctag; do t <- asserted t;
            do lc <- append lc (LC_TAG (fst ctag) (fst t)) [];
            do a <- tu2_args f t pre post lc; Ok (Brackets (fst t) :: a)
          else if String.eqb ty "JAI_TU2" then
            do t <- find_child c1 1 "TANRU_UNIT_2"; do t <- asserted t;
            do lc <- append lc LC_JAI []; tu2_args f t pre post lc
          else if String.eqb ty "NAHE_TU2" then
            do t <- find_child c1 1 "TANRU_UNIT_2"; do t <- asserted t; tu2_args f t pre post lc
          else if String.eqb ty "ABSTRACTION" then
            do nns <- child_ref c1 0;
            do _ <- type_check nns "NU_NAI_SEQ";
            do c <- child_ref nns 0;
            do c2 <- stripped c;
            if is_cm T_NU (snd c2) then give_both pre post lc (TTT_ABSTRACTION (fst c2)) (fst c2) else Ok []
          else Ok []
       end) in R.
    unfold stripped in R at 1. cbn [fst snd] in R. rewrite STR in R. cbn [obind fst snd] in R. rewrite <- app_assoc in R. cbn [app] in R.
    pose proof (fun mk conv => names_word p c rest r x mk conv E WX) as NW.
    destruct (dat x) as [| | | | | | | | | |] eqn:D; try discriminate R; cbn beta iota in R.
    all: try (eapply both_unique; [exact E | exact NW | noext | noext | noext | exact R]).
    match type of D with dat x = N_CMAVO ?t0 _ _ => set (s := t0) in *; pose proof (word_tok _ _ _ _ _ IW D) as TS; clearbody s; subst s end.
    destruct t; try discriminate SH.
    - (* BRIVLA: no such cmavo *)
      injection R as <-. split; [intros [] |]. intro O. exfalso. eapply own_none; [exact E | | exact O]. intros mk cv N. apply NW in N. exact N.
    - eapply both_unique; [exact E | exact NW | noext | noext | noext | exact R].
    - apply Nat.eqb_eq in SH.
      destruct (find_one "SUMTI" (ST T_ME :: ss) p "TANRU_UNIT_2" (c :: rest) ltac:(naug) F SH) as (i & cc & FO & O). rewrite FO in R. cbn [obind asserted fst] in R.
      oinv R. injection R as <-. pose proof (only_kid p _ _ _ _ _ E O) as OK.
      assert (U : unique p (TTT_ME (p ++ [i])) None).
      { intros mk cv. rewrite NW. cbn [tok_eqb]. split; [intros (j & K & -> & ->); apply OK in K; subst j; auto | intros [-> ->]; exists i; split; [apply OK; reflexivity | auto]]. }
      rewrite (own_unique _ _ _ _ _ _ _ _ E U), me_brackets. cbn [In]. split.
      + intros [<-|I]; [right; right; reflexivity | left; intros es Q; congruence].
      + intros [G|[(y & Q & _)| -> ]]; [right; apply G; assumption | discriminate Q | left; reflexivity].
    - apply Nat.eqb_eq in SH.
      destruct (find_one "MEX_OPERATOR" (ST T_NUhA :: ss) p "TANRU_UNIT_2" (c :: rest) ltac:(naug) F SH) as (i & cc & FO & O). rewrite FO in R. cbn [obind deref fst] in R.
      oinv R. injection R as <-. pose proof (only_kid p _ _ _ _ _ E O) as OK.
      assert (U : unique p (TTT_NUhA (p ++ [i])) (Some (p ++ 0 :: r))).
      { intros mk cv. rewrite NW. cbn [tok_eqb]. split; [intros (j & K & -> & ->); apply OK in K; subst j; auto | intros [-> ->]; exists i; split; [apply OK; reflexivity | auto]]. }
      rewrite (own_unique _ _ _ _ _ _ _ _ E U), nuha_brackets, in_app_iff, (both_in _ _ _ _ _ _ E0). cbn [In].
      assert (SYM : Brackets (p ++ [i]) = e <-> e = Brackets (p ++ [i])) by (split; auto). tauto.
    - injection R as <-. split; [intros [] |]. intro O. exfalso. eapply own_none; [exact E | | exact O]. intros mk cv N. apply NW in N. exact N.
  Qed.

  (* ---------- the other sorts of tanru_unit_2 ---------- *)

  Lemma W_tu2 p a e k cc : subtree T p = Some (NT "TANRU_UNIT_2" [NT k cc]) ->
    (W p a e <-> own p a e \/ In k (sons heads "TANRU_UNIT_2") /\ W (p ++ [0]) a e).
  Proof.
    intro E. rewrite W_unfold. split; intros [O|Q]; try (left; exact O); right.
    - destruct Q as (i & b & ST & Q). apply (step_plain _ _ _ _ _ _ E eq_refl) in ST. destruct ST as (-> & k' & c' & N & I).
      destruct i as [|[|i]]; try discriminate N. injection N as <- <-. auto.
    - destruct Q as [I Q]. exists 0, a. split; [| exact Q]. apply (step_plain _ _ _ _ _ _ E eq_refl). split; [reflexivity |]. exists k, cc. auto.
  Qed.
  Lemma names_kind p k cc mk c : subtree T p = Some (NT "TANRU_UNIT_2" [NT k cc]) -> k <> "AUGMENTED" -> names T p mk c ->
    (k = "NUMBER_MOI_TU2" /\ exists i d r x, nth_error cc i = Some d /\ word_of T_MOI d r x /\ mk = TTT_NUMBERMOI (p ++ [0; 0]) (p ++ 0 :: i :: r) /\ c = None) \/
    (k = "ABSTRACTION" /\ exists d ds rest r x, cc = NT "NU_NAI_SEQ" (d :: ds) :: rest /\ word_of T_NU d r x /\
       mk = TTT_ABSTRACTION (p ++ 0 :: 0 :: 0 :: r) /\ c = Some (p ++ 0 :: 0 :: 0 :: r)).
  Proof.
    intros E A N.
    assert (NW : word (NT k cc) = None) by (cbn [word]; destruct (String.eqb_spec k "AUGMENTED"); [contradiction | reflexivity]).
    destruct N as [c' rest' r' x' w ty E' W' D|c' rest' r' x' a b t E' W' D|c' rest' r' x' E' [W' D]|c' rest' r' x' i E' [W' D] K|c' rest' r' x' i E' [W' D] K
        |rest' cc' i c' r' x' E' N' W'|rest' cc' ccc c' r' x' E' W']; rewrite E in E'; injection E'; intros; subst; try congruence.
    - left. split; [reflexivity |]. exists i, c', r', x'. auto.
    - right. split; [reflexivity |]. exists c', ccc, cc', r', x'. auto.
  Qed.
  Lemma W_tu2_down p a e k cc : subtree T p = Some (NT "TANRU_UNIT_2" [NT k cc]) -> k <> "AUGMENTED" -> In k (sons heads "TANRU_UNIT_2") ->
    (W p a e <-> W (p ++ [0]) a e).
  Proof.
    intros E A I. rewrite (W_tu2 _ _ _ _ _ E). split; [| auto]. intros [O|[_ Q]]; [| exact Q]. exfalso.
    eapply own_none; [exact E | | exact O]. intros mk c N. destruct (names_kind _ _ _ _ _ E A N) as [[-> _]|[-> _]];
      cbn in I; repeat (destruct I as [I|I]; [discriminate I |]); exact I.
  Qed.
  Lemma W_tu2_own p a e k cc : subtree T p = Some (NT "TANRU_UNIT_2" [NT k cc]) -> has k (sons heads "TANRU_UNIT_2") = false -> (W p a e <-> own p a e).
  Proof.
    intros E I. rewrite (W_tu2 _ _ _ _ _ E). split; [| auto]. intros [O|[Q _]]; [exact O |]. exfalso.
    unfold has in I. assert (X : existsb (String.eqb k) (sons heads "TANRU_UNIT_2") = true) by (apply existsb_exists; exists k; split; [exact Q | apply String.eqb_refl]).
    congruence.
  Qed.

  (* number moi *)
  Lemma moi_shape : forallb (fun ss => match ss with [SN k; ST T_MOI] => negb (String.eqb k "AUGMENTED") | [SN k; ST T_MOI; SN k'] => negb (String.eqb k "AUGMENTED") && negb (String.eqb k' "AUGMENTED") | _ => false end) (alternatives "NUMBER_MOI_TU2") = true.
  Proof. vm_compute. reflexivity. Qed.
  Lemma first_cmavo_at bs x us s : forallb (fun b => cmtest b T_BAhE) bs = true -> s <> T_BAhE -> cmtest x s = true ->
    forall i, PassModel.first_cmavo i (map Leaf bs ++ Leaf x :: us) s = Some (i + List.length bs).
  Proof.
    intros B N X. induction bs as [|b bs IH]; cbn [map app PassModel.first_cmavo is_cm List.length]; intro i.
    - rewrite X. f_equal. lia.
    - cbn [forallb] in B. apply andb_true_iff in B. destruct B as [B1 B2]. replace (cmtest b s) with false.
      + rewrite (IH B2 (S i)). f_equal. lia.
      + symmetry. unfold cmtest in *. destruct (dat b); try reflexivity. apply tok_eqb_eq in B1. subst.
        destruct (tok_eqb T_BAhE s) eqn:Q; [apply tok_eqb_eq in Q; congruence | reflexivity].
  Qed.
  Lemma cmavo_at (t : tok) c ch i r x : wordlike t c -> t <> T_BAhE -> word c = Some (r, x) -> cmtest x t = true ->
    PassModel.cmavo_child i (c :: ch) t = Some (i :: r).
  Proof.
    intros Wd N Wx C. destruct Wd as [y Y|bs y us B Y U].
    - cbn [word] in Wx. injection Wx as <- <-. cbn [PassModel.cmavo_child]. rewrite C. reflexivity.
    - destruct (word_bahe bs y us B (not_bahe _ _ Y N) 0) as [E1 _]. cbn [word] in Wx. rewrite String.eqb_refl in Wx.
      match type of Wx with unemphasised 0 ?l = _ => change (unemphasised 0 l = Some (r, x)) in Wx end. rewrite E1 in Wx. injection Wx as <- <-.
      cbn [PassModel.cmavo_child]. rewrite String.eqb_refl. rewrite (first_cmavo_at bs y us t B N C 0). reflexivity.
  Qed.
  Lemma strip_nt k cc : k <> "AUGMENTED" -> maybe_strip_attitudinal (NT k cc) = Ok ([], NT k cc).
  Proof. intro A. unfold maybe_strip_attitudinal. cbn [is_nt]. destruct (String.eqb_spec k "AUGMENTED"); [contradiction | reflexivity]. Qed.
  Lemma tu2_nt f (p : list nat) k cc pre post lc : k <> "AUGMENTED" ->
    tu2_args (S f) (p, NT "TANRU_UNIT_2" [NT k cc]) pre post lc =
    (let c1 := (p ++ [0], NT k cc) in
          if String.eqb k "NUMBER_MOI_TU2" then
            do norl <- child_ref c1 0;
            match PassModel.cmavo_child 0 cc T_MOI with
            | None => UB UB_null
            | Some r =>
                do a <- give_places pre post lc (TTT_NUMBERMOI (fst norl) (fst c1 ++ r));
                Ok (a ++ match pre, post with [], [] => [] | _, _ => [Brackets (fst norl)] end)
            end
          else if String.eqb k "KE_SELBRI3_TU2" then
            do s <- find_child c1 1 "SELBRI_3"; do s <- asserted s; selbri_3_args f s pre post lc
          else if String.eqb k "SE_TU2" then
            do se <- child_ref c1 0;
            do t <- find_child c1 1 "TANRU_UNIT_2"; do t <- asserted t;
            do conv <- recover_se_conv se;
            do lc <- append lc (LC_SE conv) (fst se); tu2_args f t pre post lc
          else if String.eqb k "JAI_TAG_TU2" then
            do ctag <- find_child c1 1 "TAG";
            do t <- find_child c1 1 "TANRU_UNIT_2"; do ctag <- asserted ctag; do t <- asserted t;
            do lc <- append lc (LC_TAG (fst ctag) (fst t)) [];
            do a <- tu2_args f t pre post lc; Ok (Brackets (fst t) :: a)
          else if String.eqb k "JAI_TU2" then
            do t <- find_child c1 1 "TANRU_UNIT_2"; do t <- asserted t;
            do lc <- append lc LC_JAI []; tu2_args f t pre post lc
          else if String.eqb k "NAHE_TU2" then
            do t <- find_child c1 1 "TANRU_UNIT_2"; do t <- asserted t; tu2_args f t pre post lc
          else if String.eqb k "ABSTRACTION" then
            do nns <- child_ref c1 0;
            do _ <- type_check nns "NU_NAI_SEQ";
            do c <- child_ref nns 0;
            do c2 <- stripped c;
            if is_cm T_NU (snd c2) then give_both pre post lc (TTT_ABSTRACTION (fst c2)) (fst c2) else Ok []
          else Ok []).
  Proof.
    intro A. assert (S1 : stripped (p ++ [0], NT k cc) = Ok (p ++ [0], NT k cc)).
    { unfold stripped. cbn [fst snd]. rewrite (strip_nt _ _ A). cbn [obind]. rewrite app_nil_r. reflexivity. }
    cbn [tu2_args]. unfold type_check. cbn [snd is_nt]. change (child_ref (p, NT "TANRU_UNIT_2" [NT k cc]) 0) with (Ok (A := here) (p ++ [0], NT k cc)).
    rewrite String.eqb_refl. cbn [obind]. rewrite S1. reflexivity.
  Qed.

  Lemma tu2_moi_ok f (p : list nat) cc pre post lc es : sits T (p, NT "TANRU_UNIT_2" [NT "NUMBER_MOI_TU2" cc]) ->
    tu2_args (S f) (p, NT "TANRU_UNIT_2" [NT "NUMBER_MOI_TU2" cc]) pre post lc = Ok es -> forall e, In e es <-> W p (pre, post, lc) e.
  Proof.
    intros SI R e. assert (E : subtree T p = Some (NT "TANRU_UNIT_2" [NT "NUMBER_MOI_TU2" cc])) by exact SI.
    assert (PC : parsed (NT "NUMBER_MOI_TU2" cc)) by (eapply sits_parsed; [exact PT | exact CT | eapply sits_child; [exact SI | instantiate (1 := 0); reflexivity] | naug]).
    rewrite (W_tu2_own _ _ _ _ _ E eq_refl). rewrite tu2_nt in R by naug. cbn zeta in R. rewrite String.eqb_refl in R. cbn [fst] in R.
    destruct (alt _ _ _ PC ltac:(naug) moi_shape) as (ss & F & SH).
    destruct ss as [|[k|t|t] [|[k'|t'|t'] l]]; try discriminate SH; destruct t'; try discriminate SH.
    inversion F as [|ty ss0 c0 cs F'| | |]; subst. destruct (fitsx_cons_word _ _ _ F') as (c & rest & -> & Wd & F2). clear F F'.
    assert (KA : String.eqb k "AUGMENTED" = false).
    { destruct l as [|[k'|t|t] [|s' l]]; try discriminate SH; [apply negb_true_iff in SH; exact SH | apply andb_true_iff in SH; destruct SH as [SH _]; apply negb_true_iff in SH; exact SH]. }
    assert (RA : rest = [] \/ exists k' c', rest = [NT k' c'] /\ String.eqb k' "AUGMENTED" = false).
    { destruct l as [|[k'|t|t] [|s' l]]; try discriminate SH; [inversion F2; auto |]. right. destruct (fits1 _ _ F2) as (c' & ->). exists k', c'. split; [reflexivity |].
      apply andb_true_iff in SH. destruct SH as [_ SH]. apply negb_true_iff in SH. exact SH. }
    destruct (strip_word _ _ Wd ltac:(naug)) as (r & x & WX & IW & _ & _).
    assert (CX : cmtest x T_MOI = true) by (apply word_cm; [exact IW | discriminate..]).
    assert (CM : PassModel.cmavo_child 0 (NT k c0 :: c :: rest) T_MOI = Some (1 :: r)).
    { change (match (if String.eqb k "AUGMENTED" then PassModel.first_cmavo 0 c0 T_MOI else None) with Some j => Some [0; j] | None => PassModel.cmavo_child 1 (c :: rest) T_MOI end = Some (1 :: r)).
      rewrite KA. rewrite (cmavo_at T_MOI c rest 1 r x Wd ltac:(naug) WX CX). reflexivity. }
    change (child_ref (p ++ [0], NT "NUMBER_MOI_TU2" (NT k c0 :: c :: rest)) 0) with (Ok (A := here) ((p ++ [0]) ++ [0], NT k c0)) in R.
    cbn [obind fst] in R. rewrite CM in R. rewrite <- !app_assoc in R. cbn [app] in R. oinv R. injection R as <-.
    assert (U : unique p (TTT_NUMBERMOI (p ++ [0; 0]) (p ++ 0 :: 1 :: r)) None).
    { intros mk cv. split.
      - intro N. destruct (names_kind _ _ _ _ _ E ltac:(naug) N) as [(_ & i & d & r' & x' & N' & [W' _] & -> & ->)|[Q _]]; [| discriminate Q].
        destruct i as [|[|i]]; cbn [nth_error] in N'.
        + injection N' as <-. cbn [word] in W'. rewrite KA in W'. discriminate W'.
        + injection N' as <-. rewrite WX in W'. injection W' as <- <-. auto.
        + exfalso. destruct RA as [->|(k' & c' & -> & KA')]; [destruct i; discriminate N' |]. destruct i as [|[|i]]; try discriminate N'. injection N' as <-.
          cbn [word] in W'. rewrite KA' in W'. discriminate W'.
      - intros [-> ->]. eapply (n_moi T p [] _ 1 c); [exact E | reflexivity | split; eassumption]. }
    rewrite (own_unique _ _ _ _ _ _ _ _ E U), moi_brackets, in_app_iff. split.
    - intros [I|I]; [left; intros es Q; congruence |]. right. right. destruct pre, post; [destruct I | ..]; destruct I as [<-|[]]; (split; [| reflexivity]);
        (left; intro Q; discriminate Q) || (right; intro Q; discriminate Q).
    - intros [G|[(y & Q & _)|[D ->]]]; [left; apply G; assumption | discriminate Q |]. right. destruct pre, post; try (left; reflexivity). destruct D as [D|D]; contradiction.
  Qed.

  (* abstractions *)
  Lemma nu_shape : forallb (fun ss => match ss with SN k :: _ => String.eqb k "NU_NAI_SEQ" | _ => false end) (alternatives "ABSTRACTION") = true.
  Proof. vm_compute. reflexivity. Qed.
  Lemma nns_shape : forallb (fun ss => match ss with SN k :: _ => String.eqb k "NU_NAI_SEQ" | ST T_NU :: _ => true | _ => false end) (alternatives "NU_NAI_SEQ") = true.
  Proof. vm_compute. reflexivity. Qed.
  Lemma tu2_nu_ok f (p : list nat) cc pre post lc es : sits T (p, NT "TANRU_UNIT_2" [NT "ABSTRACTION" cc]) ->
    tu2_args (S f) (p, NT "TANRU_UNIT_2" [NT "ABSTRACTION" cc]) pre post lc = Ok es -> forall e, In e es <-> W p (pre, post, lc) e.
  Proof.
    intros SI R e. assert (E : subtree T p = Some (NT "TANRU_UNIT_2" [NT "ABSTRACTION" cc])) by exact SI.
    assert (PC : parsed (NT "ABSTRACTION" cc)) by (eapply sits_parsed; [exact PT | exact CT | eapply sits_child; [exact SI | instantiate (1 := 0); reflexivity] | naug]).
    rewrite (W_tu2_own _ _ _ _ _ E eq_refl). rewrite tu2_nt in R by naug. cbn zeta in R. cbn [String.eqb Ascii.eqb Bool.eqb] in R.
    destruct (alt _ _ _ PC ltac:(naug) nu_shape) as (ss & F & SH).
    destruct ss as [|[k|t|t] l]; try discriminate SH. apply String.eqb_eq in SH. subst k. inversion F as [|ty ss0 c0 cs F'| | |]; subst. clear F F'.
    assert (PN : parsed (NT "NU_NAI_SEQ" c0)) by (eapply parsed_children; [exact PC | naug | left; reflexivity]).
    change (child_ref (p ++ [0], NT "ABSTRACTION" (NT "NU_NAI_SEQ" c0 :: cs)) 0) with (Ok (A := here) ((p ++ [0]) ++ [0], NT "NU_NAI_SEQ" c0)) in R.
    cbn [obind] in R. unfold type_check in R. cbn [snd is_nt] in R. rewrite String.eqb_refl in R. cbn [obind] in R.
    destruct (alt _ _ _ PN ltac:(naug) nns_shape) as (ss & F & SH).
    destruct ss as [|[k|t|t] l']; try discriminate SH.
    - apply String.eqb_eq in SH. subst k. inversion F as [|ty ss0 c1 cs' F'| | |]; subst. clear F F'.
      change (child_ref ((p ++ [0]) ++ [0], NT "NU_NAI_SEQ" (NT "NU_NAI_SEQ" c1 :: cs')) 0) with (Ok (A := here) (((p ++ [0]) ++ [0]) ++ [0], NT "NU_NAI_SEQ" c1)) in R.
      cbn [obind] in R. unfold stripped in R. cbn [fst snd] in R. rewrite strip_nt in R by naug. cbn [obind snd is_cm] in R. injection R as <-.
      split; [intros [] |]. intro O. exfalso. eapply own_none; [exact E | | exact O]. intros mk cv N.
      destruct (names_kind _ _ _ _ _ E ltac:(naug) N) as [[Q _]|(_ & d & ds & rs & r' & x' & Q & [W' _] & _)]; [discriminate Q |].
      injection Q as <- _ _. discriminate W'.
    - destruct t; try discriminate SH. destruct (fitsx_cons_word _ _ _ F) as (c & rest & -> & Wd & _).
      destruct (strip_word _ _ Wd ltac:(naug)) as (r & x & WX & IW & STR & _).
      assert (CX : cmtest x T_NU = true) by (apply word_cm; [exact IW | discriminate..]).
      change (child_ref ((p ++ [0]) ++ [0], NT "NU_NAI_SEQ" (c :: rest)) 0) with (Ok (A := here) (((p ++ [0]) ++ [0]) ++ [0], c)) in R.
      cbn [obind] in R. unfold stripped in R. cbn [fst snd] in R. rewrite STR in R. cbn [obind snd fst is_cm] in R. rewrite CX in R. rewrite <- !app_assoc in R. cbn [app] in R.
      refine (both_unique _ _ _ _ _ _ _ _ E _ _ _ _ R e); [| noext | noext | noext].
      intros mk cv. split.
      + intro N. destruct (names_kind _ _ _ _ _ E ltac:(naug) N) as [[Q _]|(_ & d & ds & rs & r' & x' & Q & [W' _] & -> & ->)]; [discriminate Q |].
        injection Q as <- _ _. rewrite WX in W'. injection W' as <- _. auto.
      + intros [-> ->]. eapply n_nu; [exact E | split; eassumption].
  Qed.

  (* ---------- other steps ---------- *)

  Lemma step_cases p a i b k ch : subtree T p = Some (NT k ch) -> step T p a i b ->
    (b = a /\ exists k' cc, nth_error ch i = Some (NT k' cc) /\ In k' (sons heads k)) \/
    (i = 0 /\ b = a /\ exists k' cc, ch = [NT k' cc] /\ In k' (sons alone k)) \/
    match a with (pre, post, lc) =>
      (k = "SELBRI_2" /\ exists cc, nth_error ch i = Some (NT "SELBRI_3" cc) /\ (exists j dd, nth_error ch j = Some (NT "SELBRI_2" dd)) /\
         (forall q n, p = q ++ [n] -> ~ kid T q "SELBRI_2" n "SELBRI_2") /\ b = (pre, [], lc)) \/
      (k = "SELBRI_2" /\ exists cc, nth_error ch i = Some (NT "SELBRI_2" cc) /\ b = ([], post, lc)) \/
      (k = "TANRU_UNIT_1" /\ i = 0 /\ exists c la, ch = [c; la] /\ b = (pre, post, lc ++ [(LC_LINKS (sorts (terms_in (p ++ [1]) la)), [])])) \/
      (k = "SE_TU2" /\ exists c rest r x n cc, ch = c :: rest /\ word_of T_SE c r x /\ In (text_of x, n) [("se", 2); ("te", 3); ("ve", 4); ("xe", 5)] /\
         nth_error ch i = Some (NT "TANRU_UNIT_2" cc) /\ b = (pre, post, lc ++ [(LC_SE n, p ++ [0])])) \/
      (k = "JAI_TU2" /\ exists cc, nth_error ch i = Some (NT "TANRU_UNIT_2" cc) /\ b = (pre, post, lc ++ [(LC_JAI, [])])) \/
      (k = "JAI_TAG_TU2" /\ exists cc j dd, nth_error ch i = Some (NT "TANRU_UNIT_2" cc) /\ nth_error ch j = Some (NT "TAG" dd) /\
         b = (pre, post, lc ++ [(LC_TAG (p ++ [j]) (p ++ [i]), [])]))
    end.
  Proof.
    intros E ST. destruct ST as [p k0 i k' a (c1 & c2 & E1 & E2) I|p k0 k' cc a E1 I|p i j pre post lc (c1 & c2 & E1 & E2) (c3 & c4 & E3 & E4) Q|p j pre post lc (c1 & c2 & E1 & E2)
        |p c la pre post lc E1|p c rest i r x n pre post lc E1 WX IN (c1 & c2 & E2 & E3)|p i pre post lc (c1 & c2 & E1 & E2)|p i j pre post lc (c1 & c2 & E1 & E2) (c3 & c4 & E3 & E4)];
      rewrite E in E1; injection E1; intros; subst.
    - left. split; [reflexivity |]. exists k', c2. split; [exact E2 | apply sons_in; exact I].
    - right. left. split; [reflexivity |]. split; [reflexivity |]. exists k', cc. split; [reflexivity | apply sons_in; exact I].
    - right. right. left. rewrite E in E3. injection E3 as ->. split; [reflexivity |]. exists c2. eauto 8.
    - right. right. right. left. eauto.
    - right. right. right. right. left. eauto 8.
    - right. right. right. right. right. left. rewrite E in E2. injection E2 as <-. split; [reflexivity |]. exists c, rest, r, x, n, c2. auto 8.
    - right. right. right. right. right. right. left. eauto.
    - right. right. right. right. right. right. right. rewrite E in E3. injection E3 as ->. split; [reflexivity |]. exists c2, j, c4. auto.
  Qed.

  Lemma own_not p a e k ch : subtree T p = Some (NT k ch) -> has k ["TANRU_UNIT_1"; "JAI_TAG_TU2"; "TANRU_UNIT_2"] = false -> ~ own p a e.
  Proof. intros E H O. destruct (own_kind _ _ _ _ _ O E) as [->|[->| ->]]; discriminate H. Qed.

  Lemma se_table (w : string) n m : In (w, n) [("se", 2); ("te", 3); ("ve", 4); ("xe", 5)] -> In (w, m) [("se", 2); ("te", 3); ("ve", 4); ("xe", 5)] -> n = m.
  Proof.
    cbn [In]. intros [A|[A|[A|[A|[]]]]] [B|[B|[B|[B|[]]]]]; injection A as <- <-; try discriminate B; injection B as <-; reflexivity.
  Qed.
  Lemma W_se p pre post lc e c rest r x n i cc : subtree T p = Some (NT "SE_TU2" (c :: rest)) -> word_of T_SE c r x ->
    In (text_of x, n) [("se", 2); ("te", 3); ("ve", 4); ("xe", 5)] -> only "TANRU_UNIT_2" (c :: rest) i cc ->
    (W p (pre, post, lc) e <-> W (p ++ [i]) (pre, post, lc ++ [(LC_SE n, p ++ [0])]) e).
  Proof.
    intros E WX IN O. rewrite W_unfold. split.
    - intros [Q|(j & b & ST & Q)]; [destruct (own_not _ _ _ _ _ E eq_refl Q) |]. apply (step_cases _ _ _ _ _ _ E) in ST.
      destruct ST as [(_ & k' & c' & _ & I)|[(_ & _ & k' & c' & _ & I)|[[X _]|[[X _]|[[X _]|[X|[[X _]|[X _]]]]]]]]; try discriminate X; try (destruct I; fail).
      destruct X as (_ & c0 & rest0 & r0 & x0 & n0 & cc0 & E0 & [W0 _] & I0 & N0 & ->). injection E0 as <- <-. destruct WX as [WX CX].
      rewrite WX in W0. injection W0 as <- <-. rewrite (se_table _ _ _ IN I0). apply O in N0. destruct N0 as [-> _]. exact Q.
    - intro Q. right. eexists _, _. split; [| exact Q]. eapply s_se; [exact E | exact WX | exact IN |]. apply (only_kid p _ _ _ _ _ E O). reflexivity.
  Qed.
  Lemma W_jai p pre post lc e ch i cc : subtree T p = Some (NT "JAI_TU2" ch) -> only "TANRU_UNIT_2" ch i cc ->
    (W p (pre, post, lc) e <-> W (p ++ [i]) (pre, post, lc ++ [(LC_JAI, [])]) e).
  Proof.
    intros E O. rewrite W_unfold. split.
    - intros [Q|(j & b & ST & Q)]; [destruct (own_not _ _ _ _ _ E eq_refl Q) |]. apply (step_cases _ _ _ _ _ _ E) in ST.
      destruct ST as [(_ & k' & c' & _ & I)|[(_ & _ & k' & c' & _ & I)|[[X _]|[[X _]|[[X _]|[[X _]|[X|[X _]]]]]]]]; try discriminate X; try (destruct I; fail).
      destruct X as (_ & cc0 & N0 & ->). apply O in N0. destruct N0 as [-> _]. exact Q.
    - intro Q. right. eexists _, _. split; [| exact Q]. eapply s_jai. apply (only_kid p _ _ _ _ _ E O). reflexivity.
  Qed.
  Lemma W_jai_tag p pre post lc e ch i cc j dd : subtree T p = Some (NT "JAI_TAG_TU2" ch) -> only "TANRU_UNIT_2" ch i cc -> only "TAG" ch j dd ->
    (W p (pre, post, lc) e <-> e = Brackets (p ++ [i]) \/ W (p ++ [i]) (pre, post, lc ++ [(LC_TAG (p ++ [j]) (p ++ [i]), [])]) e).
  Proof.
    intros E O OT. pose proof (only_kid p _ _ _ _ _ E O) as K1. pose proof (only_kid p _ _ _ _ _ E OT) as K2. rewrite W_unfold. split.
    - intros [Q|(u & b & ST & Q)].
      + left. destruct Q as [? ? ? E'|? ? ? K|? ? ? ? ? ? ? N|? ? ? ? ? ? ? N|? ? ? N|? ? ? ? N|? ? ? ? ? ? N];
          try (destruct (names_tu2 _ _ _ N) as (c1 & E')); try (rewrite E in E'; discriminate E'). apply K1 in K. subst. reflexivity.
      + right. apply (step_cases _ _ _ _ _ _ E) in ST.
        destruct ST as [(_ & k' & c' & _ & I)|[(_ & _ & k' & c' & _ & I)|[[X _]|[[X _]|[[X _]|[[X _]|[[X _]|X]]]]]]]; try discriminate X; try (destruct I; fail).
        destruct X as (_ & cc0 & j0 & dd0 & N0 & N1 & ->). apply O in N0. destruct N0 as [-> _]. apply OT in N1. destruct N1 as [-> _]. exact Q.
    - intros [->|Q]; [left; apply own_jai; apply K1; reflexivity |].
      right. eexists _, _. split; [| exact Q]. eapply s_jai_tag; [apply K1 | apply K2]; reflexivity.
  Qed.
  Lemma W_tu1 p a e ch : subtree T p = Some (NT "TANRU_UNIT_1" ch) ->
    (W p a e <-> e = Done p \/ exists b, step T p a 0 b /\ W (p ++ [0]) b e).
  Proof.
    intros E. rewrite W_unfold. split.
    - intros [Q|(u & b & ST & Q)].
      + left. destruct Q as [? ? ? E'|? ? ? K|? ? ? ? ? ? ? N|? ? ? ? ? ? ? N|? ? ? N|? ? ? ? N|? ? ? ? ? ? N]; [reflexivity | exfalso ..];
          try (destruct (names_tu2 _ _ _ N) as (c1 & E')); try (rewrite E in E'; discriminate E'). destruct K as (c1 & c2 & E1 & _). rewrite E in E1. discriminate E1.
      + right. pose proof ST as ST'. apply (step_cases _ _ _ _ _ _ E) in ST. destruct a as [[pre post] lc].
        destruct ST as [(_ & k' & c' & _ & I)|[(-> & _)|[[X _]|[[X _]|[X|[[X _]|[[X _]|[X _]]]]]]]]; try discriminate X; try (destruct I; fail).
        * eauto.
        * destruct X as (_ & -> & _). eauto.
    - intros [->|(b & ST & Q)]; [left; eapply own_done; exact E | right; eauto].
  Qed.
  Lemma W_tu1_bare p a e c : subtree T p = Some (NT "TANRU_UNIT_1" [NT "TANRU_UNIT_2" c]) -> (W p a e <-> e = Done p \/ W (p ++ [0]) a e).
  Proof.
    intro E. rewrite (W_tu1 _ _ _ _ E). split; intros [Q|Q]; try (left; exact Q); right.
    - destruct Q as (b & ST & Q). apply (step_cases _ _ _ _ _ _ E) in ST. destruct a as [[pre post] lc].
      destruct ST as [(-> & _)|[(_ & -> & _)|[[X _]|[[X _]|[X|[[X _]|[[X _]|[X _]]]]]]]]; try discriminate X; try exact Q.
      destruct X as (_ & _ & c0 & la & X & _). discriminate X.
    - exists a. split; [| exact Q]. eapply s_alone; [exact E |]. cbn [alone In]. auto.
  Qed.
  Lemma W_tu1_linked p pre post lc e c la : subtree T p = Some (NT "TANRU_UNIT_1" [c; la]) ->
    (W p (pre, post, lc) e <-> e = Done p \/ W (p ++ [0]) (pre, post, lc ++ [(LC_LINKS (sorts (terms_in (p ++ [1]) la)), [])]) e).
  Proof.
    intro E. rewrite (W_tu1 _ _ _ _ E). split; intros [Q|Q]; try (left; exact Q); right.
    - destruct Q as (b & ST & Q). apply (step_cases _ _ _ _ _ _ E) in ST.
      destruct ST as [(_ & k' & c' & _ & I)|[(_ & _ & k' & c' & X & I)|[[X _]|[[X _]|[X|[[X _]|[[X _]|[X _]]]]]]]]; try discriminate X; try (destruct I; fail).
      destruct X as (_ & _ & c0 & la0 & X & ->). injection X as <- <-. exact Q.
    - eexists. split; [| exact Q]. eapply s_links. exact E.
  Qed.
  (* tanru_unit *)
  Lemma W_tu p a e ch : subtree T p = Some (NT "TANRU_UNIT" ch) ->
    (W p a e <-> exists cc, ch = [NT "TANRU_UNIT_1" cc] /\ W (p ++ [0]) a e).
  Proof.
    intro E. rewrite W_unfold. split.
    - intros [Q|(j & b & ST & Q)]; [destruct (own_not _ _ _ _ _ E eq_refl Q) |]. apply (step_cases _ _ _ _ _ _ E) in ST. destruct a as [[pre post] lc].
      destruct ST as [(_ & k' & c' & _ & I)|[(-> & -> & k' & c' & -> & I)|[[X _]|[[X _]|[[X _]|[[X _]|[[X _]|[X _]]]]]]]]; try discriminate X; try (destruct I; fail).
      destruct I as [<-|[]]. eauto.
    - intros (cc & -> & Q). right. exists 0, a. split; [| exact Q]. eapply s_alone; [exact E |]. cbn [alone In]. auto.
  Qed.
  Lemma W_s6 p a e ch : subtree T p = Some (NT "SELBRI_6" ch) ->
    (W p a e <-> (exists cc, ch = [NT "TANRU_UNIT" cc] /\ W (p ++ [0]) a e) \/
                 exists i k' cc, nth_error ch i = Some (NT k' cc) /\ In k' ["SELBRI_6"; "SELBRI"] /\ W (p ++ [i]) a e).
  Proof.
    intro E. rewrite W_unfold. split.
    - intros [Q|(j & b & ST & Q)]; [destruct (own_not _ _ _ _ _ E eq_refl Q) |]. apply (step_cases _ _ _ _ _ _ E) in ST. destruct a as [[pre post] lc].
      destruct ST as [(-> & k' & c' & N & I)|[(-> & -> & k' & c' & -> & I)|[[X _]|[[X _]|[[X _]|[[X _]|[[X _]|[X _]]]]]]]]; try discriminate X; try (destruct I; fail).
      + right. exists j, k', c'. auto.
      + left. destruct I as [<-|[]]. eauto.
    - intros [(cc & -> & Q)|(i & k' & cc & N & I & Q)]; right.
      + exists 0, a. split; [| exact Q]. eapply s_alone; [exact E |]. cbn [alone In]. auto.
      + exists i, a. split; [| exact Q]. eapply s_head; [exists ch, cc; split; eassumption |]. apply sons_in. exact I.
  Qed.
  (* selbri_2 *)
  Lemma W_s2_one p a e cc : subtree T p = Some (NT "SELBRI_2" [NT "SELBRI_3" cc]) -> (W p a e <-> W (p ++ [0]) a e).
  Proof.
    intro E. rewrite W_unfold. split.
    - intros [Q|(j & b & ST & Q)]; [destruct (own_not _ _ _ _ _ E eq_refl Q) |]. apply (step_cases _ _ _ _ _ _ E) in ST. destruct a as [[pre post] lc].
      destruct ST as [(_ & k' & c' & N & I)|[(-> & -> & _)|[X|[X|[[X _]|[[X _]|[[X _]|[X _]]]]]]]]; try discriminate X; try (destruct I; fail); [exact Q | exfalso ..].
      + destruct X as (_ & c1 & _ & (j1 & dd & N) & _). destruct j1 as [|[|?]]; discriminate N.
      + destruct X as (_ & c1 & N & _). destruct j as [|[|?]]; discriminate N.
    - intro Q. right. exists 0, a. split; [| exact Q]. eapply s_alone; [exact E |]. cbn [alone In]. auto.
  Qed.
  Lemma W_s2_co p pre post lc e ch i cc j dd : subtree T p = Some (NT "SELBRI_2" ch) -> only "SELBRI_3" ch i cc -> only "SELBRI_2" ch j dd ->
    (W p (pre, post, lc) e <->
     (forall q n, p = q ++ [n] -> ~ kid T q "SELBRI_2" n "SELBRI_2") /\ W (p ++ [i]) (pre, [], lc) e \/ W (p ++ [j]) ([], post, lc) e).
  Proof.
    intros E O O2. pose proof (only_kid p _ _ _ _ _ E O) as K1. pose proof (only_kid p _ _ _ _ _ E O2) as K2. rewrite W_unfold. split.
    - intros [Q|(u & b & ST & Q)]; [destruct (own_not _ _ _ _ _ E eq_refl Q) |]. apply (step_cases _ _ _ _ _ _ E) in ST.
      destruct ST as [(_ & k' & c' & N & I)|[(_ & _ & k' & c' & -> & _)|[X|[X|[[X _]|[[X _]|[[X _]|[X _]]]]]]]]; try discriminate X; try (destruct I; fail).
      + exfalso. assert (N1 : nth_error [NT k' c'] i = Some (NT "SELBRI_3" cc)) by (apply O; auto).
        assert (N2 : nth_error [NT k' c'] j = Some (NT "SELBRI_2" dd)) by (apply O2; auto).
        destruct i as [|[|i]]; try discriminate N1. destruct j as [|[|j]]; try discriminate N2. congruence.
      + left. destruct X as (_ & c1 & N & _ & NP & ->). apply O in N. destruct N as [-> _]. auto.
      + right. destruct X as (_ & c1 & N & ->). apply O2 in N. destruct N as [-> _]. exact Q.
    - intros [[NP Q]|Q]; right; eexists _, _; (split; [| exact Q]).
      + eapply s_co_first; [apply K1; reflexivity | apply K2; reflexivity | exact NP].
      + eapply s_co_rest. apply K2. reflexivity.
  Qed.
End HEADS.
