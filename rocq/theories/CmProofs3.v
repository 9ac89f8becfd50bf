(* The word glosser: compounds and borrowings. *)
From Coq Require Import String Ascii List NArith ZArith Bool Arith Lia.
From Verif Require Import Base LayoutModel LujvoSpec CmModel CmSpec CmProofs CmProofs2.
Import ListNotations.
Open Scope list_scope.

(* ---- letters ---- *)
Ltac letters H := unfold cons, vow, LujvoSpec.among in H; apply existsb_exists in H; destruct H as (?x & ?I & ?E); apply Ascii.eqb_eq in E; subst;
  cbn in I; repeat (destruct I as [<-|I]; [try reflexivity; try (intro; discriminate) |]); try (destruct I).
Definition plain_cons (c : ascii) : bool :=
  negb (Ascii.eqb c "y") && negb (Ascii.eqb c "'") && negb (strchr "aeiou" c) && negb (Ascii.eqb c nul).
Definition plain_vow (c : ascii) : bool :=
  negb (Ascii.eqb c "y") && negb (Ascii.eqb c "'") && strchr "aeiou" c && negb (is_consonant c) && negb (is_consonant_not_r c)
  && negb (Ascii.eqb c "r") && negb (Ascii.eqb c "n") && negb (Ascii.eqb c "l") && negb (Ascii.eqb c nul).
Lemma all_cons c : cons c = true -> plain_cons c = true.
Proof. intro H. letters H. Qed.
Lemma all_vow c : vow c = true -> plain_vow c = true.
Proof. intro H. letters H. Qed.
Ltac bools H := repeat (apply andb_true_iff in H; let H' := fresh H in destruct H as [H H']).
Lemma cons_y c : cons c = true -> Ascii.eqb c "y" = false.
Proof. intro H. apply all_cons in H. unfold plain_cons in H. destruct (Ascii.eqb c "y"); [discriminate H | reflexivity]. Qed.
Lemma cons_h c : cons c = true -> Ascii.eqb c "'" = false.
Proof. intro H. apply all_cons in H. unfold plain_cons in H. destruct (Ascii.eqb c "y"), (Ascii.eqb c "'"); try discriminate H; reflexivity. Qed.
Lemma cons_v c : cons c = true -> strchr "aeiou" c = false.
Proof. intro H. apply all_cons in H. unfold plain_cons in H. destruct (Ascii.eqb c "y"), (Ascii.eqb c "'"), (strchr "aeiou" c); try discriminate H; reflexivity. Qed.
Lemma cons_0 c : cons c = true -> Ascii.eqb c nul = false.
Proof. intro H. apply all_cons in H. unfold plain_cons in H. destruct (Ascii.eqb c "y"), (Ascii.eqb c "'"), (strchr "aeiou" c), (Ascii.eqb c nul); try discriminate H; reflexivity. Qed.
Lemma vow_y c : vow c = true -> Ascii.eqb c "y" = false.
Proof. intro H. letters H. Qed.
Lemma vow_h c : vow c = true -> Ascii.eqb c "'" = false.
Proof. intro H. letters H. Qed.
Lemma vow_v c : vow c = true -> strchr "aeiou" c = true.
Proof. intro H. letters H. Qed.
Lemma vow_c c : vow c = true -> is_consonant c = false /\ is_consonant_not_r c = false.
Proof. intro H. letters H; split; reflexivity. Qed.
Definition rnl (c : ascii) : bool := Ascii.eqb c "r" || Ascii.eqb c "n" || Ascii.eqb c "l".
Lemma vow_rnl c : vow c = true -> rnl c = false.
Proof. intro H. letters H. Qed.
Lemma pair_cons a b : initial_pair a b = true -> cons a = true /\ cons b = true /\ rnl a = false.
Proof.
  unfold initial_pair, pair_in. intro H. apply existsb_exists in H. destruct H as (s & I & E).
  destruct (list_eq_dec ascii_dec (text s) [a; b]) as [Q|]; [| discriminate E]. clear E. cbn in I.
  repeat (destruct I as [<-|I]; [cbn in Q; injection Q as <- <-; repeat split; reflexivity |]). destruct I.
Qed.
Lemma permissible_cons a b : permissible a b = true -> cons a = true /\ cons b = true.
Proof. unfold permissible. intro H. bools H. auto. Qed.
Lemma mid a b c : rnl b = false -> hyphen a b c = false.
Proof.
  unfold rnl, hyphen. intro H. apply orb_false_iff in H. destruct H as [H H2]. apply orb_false_iff in H. destruct H as [H0 H1]. rewrite H0, H1, H2.
  rewrite !andb_false_r. reflexivity.
Qed.
Lemma left_ a b c : vow a = true -> hyphen a b c = false.
Proof. intro H. destruct (vow_c _ H) as [H1 H2]. unfold hyphen. rewrite H1, H2. reflexivity. Qed.
Lemma right_ a b c : vow c = true -> hyphen a b c = false.
Proof. intro H. destruct (vow_c _ H) as [H1 H2]. unfold hyphen. rewrite H1, H2. rewrite !andb_false_r. reflexivity. Qed.
Lemma left_y b c : hyphen "y" b c = false.
Proof. reflexivity. Qed.

(* ---- no hyphen of a borrowing in a compound ---- *)
Definition quiet (w : txt) : Prop := forall i, find_hyphen i w = None.
Definition calm (a : ascii) (w : txt) : Prop := match w with b :: c :: _ :: _ => hyphen a b c = false | _ => True end.
Lemma quiet_cons a w : calm a w -> quiet w -> quiet (a :: w).
Proof.
  intros C Q i. destruct w as [|b [|c [|d w]]]; try reflexivity. cbn [calm] in C. cbn [find_hyphen]. rewrite C. apply (Q (S i)).
Qed.
Lemma quiet_nil : quiet [].
Proof. intro i. reflexivity. Qed.
(* how what follows a part begins *)
Definition begun (t : txt) : Prop := exists a b t', t = a :: b :: t' /\ cons a = true /\ (vow b = true \/ initial_pair a b = true).
Lemma calm_begun a t : begun t -> calm a t.
Proof.
  intros (b & c & t' & -> & C & [V|P]); cbn [calm]; destruct t' as [|d t']; trivial; [apply right_; exact V |]. apply mid. apply (pair_cons _ _ P).
Qed.
Lemma calm_vow a t : vow a = true -> calm a t.
Proof. intro V. destruct t as [|b [|c [|d t]]]; cbn [calm]; trivial. apply left_. exact V. Qed.
Lemma calm_mid a b t : rnl b = false -> calm a (b :: t).
Proof. intro H. destruct t as [|c [|d t]]; cbn [calm]; trivial. apply mid. exact H. Qed.
Lemma calm_right a b c t : vow c = true -> calm a (b :: c :: t).
Proof. intro H. destruct t as [|d t]; cbn [calm]; trivial. apply right_. exact H. Qed.
Ltac calms := first [apply calm_vow; assumption | apply calm_mid; reflexivity | apply calm_mid; apply vow_rnl; assumption | apply calm_right; assumption | apply calm_begun; assumption
  | match goal with |- calm "y" ?w => destruct w as [|?b [|?c [|?d ?w]]]; cbn [calm]; trivial; reflexivity | |- calm "'" ?w => destruct w as [|?b [|?c [|?d ?w]]]; cbn [calm]; trivial; reflexivity end ].

Lemma joined_begun k p l : (medial k = true \/ final k = true) -> form k p -> begun (joined ((k, p) :: l)).
Proof.
  intros _ F. assert (E : exists s, joined ((k, p) :: l) = p ++ s) by (destruct l as [|y l]; [exists []; cbn [joined snd]; rewrite app_nil_r; reflexivity | cbn [joined snd]; eauto]).
  destruct E as (s & ->). destruct F; cbn [app]; (eexists _, _, _; split; [reflexivity |]); try (split; [assumption | left; assumption]);
    (split; [apply (pair_cons _ _ H) | right; assumption]).
Qed.
Lemma parts_begun l : parts l -> begun (joined l).
Proof. intros [k p F FO|k p l' M FO _]; apply joined_begun; auto. Qed.

Lemma quiet_part k p t : form k p -> (begun t \/ t = [] \/ exists t', t = "y"%char :: t') -> ((k = CVCC \/ k = CCVC) -> exists t', t = "y"%char :: t') -> quiet t -> quiet (p ++ t).
Proof.
  intros F B Y Q.
  assert (CT : forall a, calm a t) by (intro a; destruct B as [B|[->|(t' & ->)]]; [apply calm_begun; exact B | exact I | apply calm_mid; reflexivity]).
  destruct F; cbn [app]; try (apply pair_cons in H as PH; destruct PH as (PH1 & PH2 & PH3)); try (destruct Y as (t' & ->); [solve [auto] |]).
  - apply quiet_cons; [calms | apply quiet_cons; [calms | apply quiet_cons; [apply CT | exact Q]]].
  - apply quiet_cons; [calms | apply quiet_cons; [calms | apply quiet_cons; [apply CT | exact Q]]].
  - apply quiet_cons; [calms | apply quiet_cons; [calms | apply quiet_cons; [apply CT | exact Q]]].
  - apply quiet_cons; [calms | apply quiet_cons; [calms | apply quiet_cons; [calms | apply quiet_cons; [apply CT | exact Q]]]].
  - apply quiet_cons; [calms | apply quiet_cons; [calms | apply quiet_cons; [| apply quiet_cons; [apply CT | exact Q]]]].
    destruct t' as [|d t']; cbn [calm]; trivial. unfold hyphen. change (is_consonant_not_r "y") with false. change (is_consonant "y") with false. rewrite !andb_false_r. reflexivity.
  - apply quiet_cons; [calms | apply quiet_cons; [calms | apply quiet_cons; [calms | apply quiet_cons; [apply CT | exact Q]]]].
  - apply quiet_cons; [calms | apply quiet_cons; [calms | apply quiet_cons; [calms | apply quiet_cons; [calms | apply quiet_cons; [apply CT | exact Q]]]]].
  - apply quiet_cons; [calms | apply quiet_cons; [calms | apply quiet_cons; [calms | apply quiet_cons; [calms | apply quiet_cons; [apply CT | exact Q]]]]].
Qed.
Lemma quiet_y t : quiet t -> quiet ("y"%char :: t).
Proof. intro Q. apply quiet_cons; [| exact Q]. destruct t as [|b [|c [|d t]]]; cbn [calm]; trivial. Qed.
Lemma joined_more x y l : joined (x :: y :: l) = snd x ++ y_if (y_between x y) ++ joined (y :: l).
Proof. reflexivity. Qed.
Lemma quiet_joined l : parts l -> quiet (joined l).
Proof.
  induction 1 as [k p F FO|k p l M FO PL IH].
  - cbn [joined snd]. rewrite <- (app_nil_r p). apply (quiet_part k); [exact FO | auto | | apply quiet_nil]. intros [->| ->]; discriminate F.
  - destruct l as [|y l]; [inversion PL |]. rewrite joined_more. cbn [snd]. pose proof (parts_begun _ PL) as B.
    destruct (y_between (k, p) y) eqn:Y; cbn [y_if app].
    + apply (quiet_part k); [exact FO | right; right; eauto | eauto | apply quiet_y; exact IH].
    + apply (quiet_part k); [exact FO | auto | | exact IH]. intros [->| ->]; discriminate Y.
Qed.
Lemma quiet_lujvo l w : parts l -> lujvo l w -> quiet w.
Proof.
  intros P L. inversion L as [k p y l' K|p y l' K|p y l' K1 K2|k p q K|k p y l' K K2]; subst.
  - apply quiet_joined. exact P.
  - inversion P as [|? ? ? M FO PL]; subst. apply (quiet_part CVC); [exact FO | right; right; cbn [app]; eauto | intros [Q|Q]; discriminate Q |]. cbn [app]. apply quiet_y, quiet_joined. exact PL.
  - inversion P as [|? ? ? M FO PL]; subst. apply (quiet_part CVC); [exact FO | left; apply parts_begun; exact PL | intros [Q|Q]; discriminate Q | apply quiet_joined; exact PL].
  - inversion P as [|? ? ? M FO PL]; subst. pose proof (parts_begun _ PL) as B. pose proof (quiet_joined _ PL) as Q. cbn [joined snd] in B, Q.
    apply (quiet_part k); [exact FO | auto | intros [->| ->]; destruct K; discriminate | exact Q].
  - inversion P as [|? ? ? M FO PL]; subst. pose proof (parts_begun _ PL) as B. pose proof (quiet_joined _ PL) as Q. set (t := joined (y :: l')) in *. set (h := hyphen_rn y).
    assert (QH : quiet (h :: t)) by (apply quiet_cons; [apply calm_begun; exact B | exact Q]).
    destruct B as (a & b & t' & E & CA & _). cbn [app].
    inversion FO; subst; try (destruct K; discriminate); cbn [app].
    + apply quiet_cons; [calms | apply quiet_cons; [calms | apply quiet_cons; [calms | exact QH]]].
    + apply quiet_cons; [calms | apply quiet_cons; [calms | apply quiet_cons; [calms | apply quiet_cons; [calms | exact QH]]]].
Qed.

(* ---- one round of the loop ---- *)
Lemma conv_spec p n d : In (string_of_list_ascii p, (n, d)) conversions -> conv_of p = Some n /\ d = ascii_of_nat (48 + n) /\ n <> 0 /\ exists a v b, p = [a; v; b].
Proof.
  intro I. assert (Q : p = list_ascii_of_string (string_of_list_ascii p)) by (symmetry; apply list_ascii_of_string_of_list_ascii).
  cbn in I. repeat (destruct I as [I|I]; [injection I as E <- <-; rewrite <- E in Q; subst p; cbn; (split; [reflexivity | split; [reflexivity | split; [intro; discriminate | eauto]]]) |]). destruct I.
Qed.
Lemma conv_none a v b : ~ is_conversion [a; v; b] -> conv_of [a; v; b] = None.
Proof.
  intro N. unfold conv_of. cbn [firstn].
  repeat match goal with |- context [list_eq_dec ascii_dec ?x ?y] => destruct (list_eq_dec ascii_dec x y) as [E|] end; try reflexivity; exfalso; apply N;
    cbn in E; injection E as -> -> ->; eexists; cbn; eauto.
Qed.
Section LOOP.
  Variable dict : txt -> option txt.
  Definition first_piece (p : txt) (conv : nat) (initial : bool) (result : txt) : outcome (nat * txt) :=
    match (if Nat.eqb (List.length p) 3 then conv_of p else None) with
    | Some c => Ok (c, result)
    | None => do x <- translate_comp dict ("%"%char :: p) conv; do r <- append_trans (fst x) result initial; Ok (snd x, r)
    end.
  Inductive sep (initial : bool) : LujvoSpec.kind -> txt -> txt -> Prop :=
  | sep_y k t : k = CVC \/ k = CVCC \/ k = CCVC -> sep initial k (lit "y") t
  | sep_no k t : k = CVC \/ k = CCV -> sep initial k [] t
  | sep_vv k t : k = CVV \/ k = CVhV -> initial = false \/ (exists a b t', t = a :: b :: t' /\ initial_pair a b = true) -> sep initial k [] t
  | sep_rn k a t : k = CVV \/ k = CVhV -> initial = true -> sep initial k [if Ascii.eqb a "r" then "n"%char else "r"%char] (a :: t).
  Lemma bind_assoc {A B C} (x : outcome A) (f : A -> outcome B) (g : B -> outcome C) : obind (obind x f) g = obind x (fun a => obind (f a) g).
  Proof. destruct x; reflexivity. Qed.
  Lemma begun_y t : begun t -> exists a b t', t = a :: b :: t' /\ Ascii.eqb a "y" = false /\ Ascii.eqb b "y" = false /\ Ascii.eqb a nul = false /\ cons a = true.
  Proof.
    intros (a & b & t' & -> & C & H). exists a, b, t'. repeat split; auto using cons_y, cons_0. destruct H as [H|H]; [apply vow_y; exact H | apply cons_y; apply (pair_cons _ _ H)].
  Qed.
  Lemma far_y a b c d e t (X : Type) (x3 x4 x : X) : Ascii.eqb a "y" = false -> Ascii.eqb b "y" = false -> Ascii.eqb c "y" = false -> Ascii.eqb d "y" = false -> Ascii.eqb e "y" = false ->
    match find_y (a :: b :: c :: d :: e :: t) with Some 3 => x3 | Some 4 => x4 | _ => x end = x.
  Proof. intros A B C D E. cbn [find_y]. rewrite A, B, C, D, E. destruct (find_y t); reflexivity. Qed.
  Lemma y3 a b c t : Ascii.eqb a "y" = false -> Ascii.eqb b "y" = false -> Ascii.eqb c "y" = false -> find_y (a :: b :: c :: "y"%char :: t) = Some 3.
  Proof. intros A B C. cbn [find_y]. rewrite A, B, C. reflexivity. Qed.
  Lemma y4 a b c d t : Ascii.eqb a "y" = false -> Ascii.eqb b "y" = false -> Ascii.eqb c "y" = false -> Ascii.eqb d "y" = false -> find_y (a :: b :: c :: d :: "y"%char :: t) = Some 4.
  Proof. intros A B C D. cbn [find_y]. rewrite A, B, C, D. reflexivity. Qed.
  Lemma conv_pre a b c t : conv_of (a :: b :: c :: t) = conv_of [a; b; c].
  Proof. reflexivity. Qed.
  Lemma long_enough (w : txt) : 6 <= List.length w -> Nat.eqb (List.length w) 5 = false /\ Nat.ltb (List.length w) 5 = false.
  Proof. intro H. split; [apply Nat.eqb_neq | apply Nat.ltb_ge]; lia. Qed.
  (* the loop on a long text, by what follows the first part *)
  Lemma loop_y3 f a b c t conv initial result : Ascii.eqb a "y" = false -> Ascii.eqb b "y" = false -> Ascii.eqb c "y" = false -> 3 <= List.length t ->
    lujvo_loop dict (S f) (a :: b :: c :: "y"%char :: t) conv initial result = do x <- first_piece [a; b; c] conv initial result; lujvo_loop dict f t (fst x) false (snd x).
  Proof.
    intros A B C L. destruct (long_enough (a :: b :: c :: "y"%char :: t)) as [L1 L2]; [cbn [List.length]; unfold txt in *; lia |].
    cbn [lujvo_loop]. rewrite L1, L2, (y3 _ _ _ _ A B C), conv_pre. unfold first_piece. cbn [List.length Nat.eqb firstn].
    destruct t as [|t0 t]; [cbn [List.length] in L; lia |].
    destruct (conv_of [a; b; c]); cbn [obind fst snd skipn]; [reflexivity |].
    destruct (translate_comp dict ["%"%char; a; b; c] conv) as [[tr c']| | | |]; cbn [obind fst snd]; try reflexivity.
    destruct (append_trans tr result initial); reflexivity.
  Qed.
  Lemma loop_y4 f a b c d t conv initial result : Ascii.eqb a "y" = false -> Ascii.eqb b "y" = false -> Ascii.eqb c "y" = false -> Ascii.eqb d "y" = false -> 3 <= List.length t ->
    lujvo_loop dict (S f) (a :: b :: c :: d :: "y"%char :: t) conv initial result = do x <- first_piece [a; b; c; d] conv initial result; lujvo_loop dict f t (fst x) false (snd x).
  Proof.
    intros A B C D L. destruct (long_enough (a :: b :: c :: d :: "y"%char :: t)) as [L1 L2]; [cbn [List.length]; unfold txt in *; lia |].
    cbn [lujvo_loop]. rewrite L1, L2, (y4 _ _ _ _ _ A B C D). unfold first_piece. cbn [List.length Nat.eqb firstn].
    destruct t as [|t0 t]; [cbn [List.length] in L; lia |].
    destruct (translate_comp dict ["%"%char; a; b; c; d] conv) as [[tr c']| | | |]; cbn [obind fst snd]; try reflexivity.
    destruct (append_trans tr result initial); reflexivity.
  Qed.
  Lemma hyph3 a b c d e t initial : hyphened (a :: b :: c :: d :: e :: t) 3 initial =
    Ok (strchr "aeiou" b && strchr "aeiou" c && initial && negb (Ascii.eqb d nul) && (Ascii.eqb d "r" || Ascii.eqb d "n" && Ascii.eqb e "r")).
  Proof. reflexivity. Qed.
  Lemma hyph4 a b c d e g t initial : hyphened (a :: b :: c :: d :: e :: g :: t) 4 initial =
    Ok (strchr "aeiou" b && strchr "aeiou" d && initial && negb (Ascii.eqb e nul) && (Ascii.eqb e "r" || Ascii.eqb e "n" && Ascii.eqb g "r")).
  Proof. reflexivity. Qed.
  Lemma loop_3 f a b c d e t conv initial result : Ascii.eqb a "y" = false -> Ascii.eqb b "y" = false -> Ascii.eqb c "y" = false -> Ascii.eqb d "y" = false -> Ascii.eqb e "y" = false ->
    Ascii.eqb c "'" = false -> t <> [] ->
    lujvo_loop dict (S f) (a :: b :: c :: d :: e :: t) conv initial result = do x <- first_piece [a; b; c] conv initial result;
      lujvo_loop dict f (if strchr "aeiou" b && strchr "aeiou" c && initial && negb (Ascii.eqb d nul) && (Ascii.eqb d "r" || Ascii.eqb d "n" && Ascii.eqb e "r") then e :: t else d :: e :: t) (fst x) false (snd x).
  Proof.
    intros A B C D E H L. destruct t as [|t0 t]; [congruence |]. destruct (long_enough (a :: b :: c :: d :: e :: t0 :: t)) as [L1 L2]; [cbn [List.length]; lia |].
    cbn [lujvo_loop]. rewrite L1, L2, far_y by assumption. rewrite conv_pre. 
    change (at_ (a :: b :: c :: d :: e :: t0 :: t) 2) with (Ok c). cbn [obind]. rewrite H, hyph3. unfold first_piece. cbn [List.length Nat.eqb firstn].
    match goal with |- context [Ok (strchr "aeiou" b && ?x && ?y && ?z && ?u)] => generalize (strchr "aeiou" b && x && y && z && u) end. intro hy.
    destruct (conv_of [a; b; c]); cbn [obind fst snd]; [destruct hy; reflexivity |].
    destruct (translate_comp dict ["%"%char; a; b; c] conv) as [[tr c']| | | |]; cbn [obind fst snd]; try reflexivity.
    destruct (append_trans tr result initial); cbn [obind fst snd]; try reflexivity. destruct hy; reflexivity.
  Qed.
  Lemma loop_4 f a b d e g t conv initial result : Ascii.eqb a "y" = false -> Ascii.eqb b "y" = false -> Ascii.eqb d "y" = false -> Ascii.eqb e "y" = false -> t <> [] ->
    lujvo_loop dict (S f) (a :: b :: "'"%char :: d :: e :: g :: t) conv initial result = do x <- first_piece [a; b; "'"%char; d] conv initial result;
      lujvo_loop dict f (if strchr "aeiou" b && strchr "aeiou" d && initial && negb (Ascii.eqb e nul) && (Ascii.eqb e "r" || Ascii.eqb e "n" && Ascii.eqb g "r") then g :: t else e :: g :: t) (fst x) false (snd x).
  Proof.
    intros A B D E L. destruct t as [|t0 t]; [congruence |]. destruct (long_enough (a :: b :: "'"%char :: d :: e :: g :: t0 :: t)) as [L1 L2]; [cbn [List.length]; lia |].
    cbn [lujvo_loop]. rewrite L1, L2, far_y by (assumption || reflexivity). 
    change (at_ (a :: b :: "'"%char :: d :: e :: g :: t0 :: t) 2) with (Ok "'"%char). cbn [obind]. rewrite Ascii.eqb_refl, hyph4. unfold first_piece. cbn [List.length Nat.eqb firstn].
    match goal with |- context [Ok (strchr "aeiou" b && ?x && ?y && ?z && ?u)] => generalize (strchr "aeiou" b && x && y && z && u) end. intro hy.
    destruct (translate_comp dict ["%"%char; a; b; "'"%char; d] conv) as [[tr c']| | | |]; cbn [obind fst snd]; try reflexivity.
    destruct (append_trans tr result initial); cbn [obind fst snd]; try reflexivity. destruct hy; reflexivity.
  Qed.

  Lemma step k p h t f conv initial result : form k p -> medial k = true -> begun t -> 3 <= List.length t -> sep initial k h t ->
    lujvo_loop dict (S f) (p ++ h ++ t) conv initial result = do x <- first_piece p conv initial result; lujvo_loop dict f t (fst x) false (snd x).
  Proof.
    intros F M B L S. destruct (begun_y _ B) as (a & b & t' & E & AY & BY & A0 & AC). destruct t' as [|t2 t']; [subst t; cbn in L; lia |].
    destruct S as [k t K|k t K|k t K I|k a' t K I].
    - destruct F; try (exfalso; destruct K as [K|[K|K]]; discriminate K); cbn [app lit list_ascii_of_string].
      + apply loop_y3; auto using cons_y, vow_y.
      + apply permissible_cons in H1. destruct H1. apply loop_y4; auto using cons_y, vow_y.
      + apply pair_cons in H. destruct H as (? & ? & ?). apply loop_y4; auto using cons_y, vow_y.
    - subst t. destruct F; try (exfalso; destruct K as [K|K]; discriminate K); cbn [app].
      + rewrite loop_3; auto using cons_y, vow_y, cons_h; [| discriminate]. rewrite (cons_v b0) by assumption. rewrite andb_false_r. reflexivity.
      + apply pair_cons in H. destruct H as (? & ? & ?). rewrite loop_3; auto using cons_y, vow_y, vow_h; [| discriminate]. rewrite (cons_v b0) by assumption. reflexivity.
    - subst t. assert (N : initial = false \/ (Ascii.eqb a "r" = false /\ Ascii.eqb a "n" = false)).
      { destruct I as [I|(x & y & t'' & Q & P)]; [auto | right]. injection Q as <- <- <-. apply pair_cons in P. destruct P as (_ & _ & P). unfold rnl in P. destruct (Ascii.eqb a "r"), (Ascii.eqb a "n"); try discriminate P; auto. }
      destruct F; try (exfalso; destruct K as [K|K]; discriminate K); cbn [app].
      + rewrite loop_3; auto using cons_y, vow_y, vow_h; [| discriminate]. destruct N as [->|[-> ->]]; rewrite ?andb_false_r; reflexivity.
      + rewrite loop_4; auto using cons_y, vow_y; [| discriminate]. destruct N as [->|[-> ->]]; rewrite ?andb_false_r; reflexivity.
    - injection E as -> ->. subst initial.
      assert (Q : forall X (u v : X), (if negb (Ascii.eqb (if Ascii.eqb a "r" then "n"%char else "r"%char) nul) && (Ascii.eqb (if Ascii.eqb a "r" then "n"%char else "r"%char) "r" || Ascii.eqb (if Ascii.eqb a "r" then "n"%char else "r"%char) "n" && Ascii.eqb a "r") then u else v) = u).
      { intros. destruct (Ascii.eqb a "r") eqn:R; reflexivity. }
      assert (HY : Ascii.eqb (if Ascii.eqb a "r" then "n"%char else "r"%char) "y" = false) by (destruct (Ascii.eqb a "r"); reflexivity).
      destruct F; try (exfalso; destruct K as [K|K]; discriminate K); cbn [app].
      + rewrite loop_3; auto using cons_y, vow_y, vow_h; [| discriminate]. rewrite !vow_v by assumption. cbn [andb]. rewrite Q. reflexivity.
      + rewrite loop_4; auto using cons_y, vow_y; [| discriminate]. rewrite !vow_v by assumption. cbn [andb]. rewrite Q. reflexivity.
  Qed.

  (* ---- all rounds ---- *)
  Lemma joined_length l : parts l -> 3 <= List.length (joined l).
  Proof.
    intros [k p F FO|k p l' M FO PL].
    - cbn [joined snd]. destruct FO; cbn [List.length]; lia.
    - destruct l' as [|y l']; [inversion PL |]. rewrite joined_more. cbn [snd]. rewrite app_length. destruct FO; cbn [List.length]; lia.
  Qed.
  Lemma sep_joined k p y l : medial k = true -> sep false k (y_if (y_between (k, p) y)) (joined (y :: l)).
  Proof.
    intro M. destruct k; try discriminate M; cbn [y_between fst snd y_if].
    - destruct (_ || _); [apply sep_y | apply sep_no]; auto.
    - apply sep_no. auto.
    - apply sep_vv; auto.
    - apply sep_vv; auto.
    - apply sep_y. auto.
    - apply sep_y. auto.
  Qed.
  Lemma lujvo_sep k p y l w : parts ((k, p) :: y :: l) -> lujvo ((k, p) :: y :: l) w -> exists h, w = p ++ h ++ joined (y :: l) /\ sep true k h (joined (y :: l)).
  Proof.
    intros P L. inversion P as [|? ? ? M FO PL]; subst. inversion L as [k' p' y' l' K|p' y' l' K|p' y' l' K1 K2|k' p' q K|k' p' y' l' K K2]; subst.
    - exists (y_if (y_between (k, p) y)). split; [reflexivity |]. destruct K as [->|[->| ->]]; [apply sep_no | apply sep_y | apply sep_y]; auto.
    - exists (lit "y"). split; [reflexivity |]. apply sep_y. auto.
    - exists []. split; [reflexivity |]. apply sep_no. auto.
    - exists []. split; [reflexivity |]. apply sep_vv; [auto | right]. inversion PL as [? ? FI FQ| ? ? ? ? ? PN]; subst; [| inversion PN]. inversion FQ; subst. cbn [joined snd]. eauto 6.
    - exists [hyphen_rn y]. split; [reflexivity |]. destruct (parts_begun _ PL) as (a & b & t & E & _). rewrite E.
      replace (hyphen_rn y) with (if Ascii.eqb a "r" then "n"%char else "r"%char); [apply sep_rn; auto |].
      assert (Q : letter (snd y) 0 = a).
      { destruct y as [ky q]. assert (FQ : form ky q) by (inversion PL; assumption). assert (E' : exists s, joined ((ky, q) :: l) = q ++ s) by (destruct l as [|z l]; [exists []; cbn [joined snd]; rewrite app_nil_r; reflexivity | cbn [joined snd]; eauto]).
        destruct E' as (s & E'). rewrite E' in E. destruct FQ; cbn [app] in E; injection E as -> _; reflexivity. }
      unfold hyphen_rn. rewrite Q. reflexivity.
  Qed.
  Lemma form_length k p : form k p -> List.length p <= 5 /\ (medial k = true -> List.length p <= 4).
  Proof. intros []; cbn; split; try lia; intro H'; try discriminate H'; lia. Qed.
  Lemma key_medial k p : medial k = true -> form k p -> key p = "%"%char :: p.
  Proof. intros M F. apply form_length in F. destruct F as [_ F]. specialize (F M). unfold key. destruct (Nat.eqb_spec (List.length p) 5); [lia | reflexivity]. Qed.
  Lemma key_short k p : form k p -> List.length (key p) <= 6.
  Proof. intro F. apply form_length in F. unfold key. destruct (Nat.eqb (List.length p) 5); cbn [List.length]; lia. Qed.
  Lemma comp_plain p : List.length p <= 60 -> (N.of_nat (List.length (or_unknown (dict p))) < big)%N -> translate_comp dict p 0 = Ok (dict p, 0).
  Proof.
    intros L S. unfold translate_comp. rewrite fit_ok by (unfold txt in *; lia). cbn [obind Nat.eqb]. unfold translate. destruct (dict p) as [t|]; [| reflexivity].
    cbn [or_unknown] in S. rewrite fit_ok by exact S. reflexivity.
  Qed.
  Lemma comp_conv p n t : n <> 0 -> List.length p <= 60 -> dict (p ++ [ascii_of_nat (48 + n)]) = Some t -> (N.of_nat (List.length t) < big)%N -> translate_comp dict p n = Ok (Some t, 0).
  Proof.
    intros N L D S. unfold translate_comp. rewrite fit_ok by (unfold txt in *; lia). cbn [obind]. destruct (Nat.eqb_spec n 0); [congruence |].
    rewrite fit_ok by (rewrite app_length; cbn [List.length]; unfold txt in *; lia). cbn [obind]. unfold translate. rewrite D. rewrite fit_ok by exact S. reflexivity.
  Qed.
  Definition dashes (gs : list txt) : txt := List.concat (map (fun g => "-"%char :: g) gs).
  Lemma dashes_cons g gs : dashes (g :: gs) = "-"%char :: g ++ dashes gs.
  Proof. reflexivity. Qed.
  Lemma dashed_dashes g gs : dashed (g :: gs) = g ++ dashes gs.
  Proof.
    revert g. induction gs as [|g' gs IH]; intro g; [cbn [dashed]; unfold dashes; cbn; rewrite app_nil_r; reflexivity |].
    change (dashed (g :: g' :: gs)) with (g ++ text "-" ++ dashed (g' :: gs)). rewrite IH. reflexivity.
  Qed.
  Definition fits (t : txt) : Prop := (N.of_nat (List.length t) < big)%N.
  Lemma fits_app a b : fits (a ++ b) -> fits a /\ fits b.
  Proof. unfold fits. rewrite app_length. lia. Qed.
  Lemma piece_conv c n d conv initial result : In (string_of_list_ascii c, (n, d)) conversions -> first_piece c conv initial result = Ok (n, result).
  Proof. intro I. destruct (conv_spec _ _ _ I) as (E & _ & _ & a & v & b & ->). unfold first_piece. cbn [List.length Nat.eqb]. rewrite E. reflexivity. Qed.
  Lemma piece_word p conv result g k : form k p -> medial k = true -> ~ is_conversion p -> translate_comp dict ("%"%char :: p) conv = Ok (g, 0) ->
    fits (result ++ "-"%char :: or_unknown g) -> first_piece p conv false result = Ok (0, result ++ "-"%char :: or_unknown g).
  Proof.
    intros F M NC T S. unfold first_piece. replace (if Nat.eqb (List.length p) 3 then conv_of p else None) with (@None nat).
    - rewrite T. cbn [obind fst snd]. unfold append_trans. rewrite fit_ok by exact S. reflexivity.
    - destruct F; cbn [List.length Nat.eqb]; try reflexivity; symmetry; apply conv_none; exact NC.
  Qed.
  Lemma last_round f k p conv result g : final k = true -> form k p -> translate_comp dict (key p) conv = Ok (g, 0) -> fits (result ++ "-"%char :: or_unknown g) ->
    lujvo_loop dict (S f) p conv false result = Ok (result ++ "-"%char :: or_unknown g).
  Proof.
    intros F FO T S. cbn [lujvo_loop]. unfold key in T. destruct (Nat.eqb_spec (List.length p) 5) as [E|E].
    - rewrite T. cbn [obind fst]. unfold append_trans. rewrite fit_ok by exact S. reflexivity.
    - apply form_length in FO. destruct (Nat.ltb_spec (List.length p) 5) as [_|]; [| lia]. rewrite T. cbn [obind fst]. rewrite fit_ok by exact S. reflexivity.
  Qed.
  (* one part with its translation, and the rest *)
  Lemma part_round f k p l conv result g : parts ((k, p) :: l) -> ~ is_conversion p -> translate_comp dict (key p) conv = Ok (g, 0) -> fits (result ++ "-"%char :: or_unknown g) ->
    lujvo_loop dict (S f) (joined ((k, p) :: l)) conv false result =
      match l with [] => Ok (result ++ "-"%char :: or_unknown g) | _ => lujvo_loop dict f (joined l) 0 false (result ++ "-"%char :: or_unknown g) end.
  Proof.
    intros P NC T S. inversion P as [k' p' F FO|k' p' l' M FO PL]; subst.
    - apply (last_round _ k); assumption.
    - destruct l as [|y l]; [inversion PL |]. rewrite joined_more. cbn [snd].
      rewrite (step k) by (auto using parts_begun, joined_length, sep_joined). rewrite (key_medial k) in T by assumption. rewrite (piece_word _ _ _ g k) by assumption. reflexivity.
  Qed.
  Lemma rest_rounds l gs : glosses dict l gs -> parts l -> forall f result, List.length l <= f -> fits (result ++ dashes gs) ->
    lujvo_loop dict f (joined l) 0 false result = Ok (result ++ dashes gs).
  Proof.
    induction 1 as [|k p l gs NC G IH|k' c n d k p l t gs I NC D G IH]; intros P f result L S; [inversion P | |].
    - destruct f as [|f]; [cbn [List.length] in L; lia |]. rewrite dashes_cons in S |- *.
      assert (S1 : fits (result ++ "-"%char :: or_unknown (dict (key p)))) by (apply (fits_app _ (dashes gs)); rewrite <- app_assoc; exact S).
      assert (FO : form k p) by (inversion P; assumption).
      assert (T : translate_comp dict (key p) 0 = Ok (dict (key p), 0)).
      { apply comp_plain; [pose proof (key_short _ _ FO); lia |]. change ("-"%char :: or_unknown (dict (key p))) with (lit "-" ++ or_unknown (dict (key p))) in S1. apply fits_app in S1. destruct S1 as [_ S1]. apply fits_app in S1. apply S1. }
      rewrite (part_round _ _ _ _ _ _ (dict (key p)) P NC T S1). destruct l as [|y l].
      + inversion G; subst. cbn [dashes map List.concat]. rewrite app_nil_r. reflexivity.
      + assert (PL : parts (y :: l)) by (inversion P; assumption). rewrite IH; [rewrite <- app_assoc; reflexivity | exact PL | cbn [List.length] in *; lia | rewrite <- app_assoc; exact S].
    - destruct f as [|[|f]]; [cbn [List.length] in L; lia | cbn [List.length] in L; lia |]. rewrite dashes_cons in S |- *.
      assert (S1 : fits (result ++ "-"%char :: t)) by (apply (fits_app _ (dashes gs)); rewrite <- app_assoc; exact S).
      inversion P as [|? ? ? M FC PL]; subst. assert (FO : form k p) by (inversion PL; assumption).
      destruct (conv_spec _ _ _ I) as (_ & DE & N0 & _). subst d.
      assert (T : translate_comp dict (key p) n = Ok (Some t, 0)).
      { apply comp_conv; auto; [pose proof (key_short _ _ FO); lia |]. change ("-"%char :: t) with (lit "-" ++ t) in S1. apply fits_app in S1. destruct S1 as [_ S1]. apply fits_app in S1. apply S1. }
      rewrite joined_more. cbn [snd]. rewrite (step k') by (auto using parts_begun, joined_length, sep_joined). rewrite (piece_conv _ _ _ _ _ _ I). cbn [obind fst snd].
      rewrite (part_round _ _ _ _ _ _ (Some t) PL NC T S1). cbn [or_unknown]. destruct l as [|y l].
      + inversion G; subst. cbn [dashes map List.concat]. rewrite app_nil_r. reflexivity.
      + assert (PL' : parts (y :: l)) by (inversion PL; assumption). rewrite IH; [rewrite <- app_assoc; reflexivity | exact PL' | cbn [List.length] in *; lia | rewrite <- app_assoc; exact S].
  Qed.
  Lemma many_rounds l w : parts l -> lujvo l w -> List.length l <= List.length w.
  Proof.
    assert (J : forall l, parts l -> List.length l <= List.length (joined l)).
    { induction 1 as [k p F FO|k p l' M FO PL IH]; [cbn [joined snd List.length]; destruct FO; cbn [List.length]; lia |].
      destruct l' as [|y l']; [inversion PL |]. rewrite joined_more. rewrite app_length, app_length. cbn [snd]. cbn [List.length] in *. destruct FO; cbn [List.length]; lia. }
    intros P L. destruct l as [|[k p] [|y l]]; [inversion P | inversion L |]. destruct (lujvo_sep _ _ _ _ _ P L) as (h & -> & _). inversion P as [|? ? ? M FO PL]; subst.
    apply J in PL. rewrite !app_length. cbn [List.length] in *. destruct FO; cbn [List.length]; lia.
  Qed.

  Theorem compound_gloss k p l w gs : parts ((k, p) :: l) -> lujvo ((k, p) :: l) w -> ~ is_conversion p -> glosses dict ((k, p) :: l) gs -> fits (dashed gs) ->
    translate_unknown dict w = Ok (dashed gs).
  Proof.
    intros P L NC G S. pose proof (many_rounds _ _ P L) as ML. unfold translate_unknown. rewrite (quiet_lujvo _ _ P L 1). unfold translate_lujvo.
    destruct l as [|y l]; [inversion L |]. destruct (lujvo_sep _ _ _ _ _ P L) as (h & E & SP). inversion P as [|? ? ? M FO PL]; subst k0 p0 l0.
    inversion G as [|? ? ? gs' _ G'|? c n d ? ? ? t ? I _ _ _]; subst; [| exfalso; apply NC; eexists; exact I].
    rewrite dashed_dashes in S |- *. assert (S1 : fits (or_unknown (dict (key p)))) by (apply (fits_app _ (dashes gs')); exact S).
    rewrite (step k) by (auto using parts_begun, joined_length). unfold first_piece.
    replace (if Nat.eqb (List.length p) 3 then conv_of p else None) with (@None nat) by (destruct FO; cbn [List.length Nat.eqb]; try reflexivity; symmetry; apply conv_none; exact NC).
    rewrite <- (key_medial k) by assumption. rewrite comp_plain; [| pose proof (key_short _ _ FO); lia | exact S1]. cbn [obind fst snd]. unfold append_trans.
    change (or_ (dict (key p)) "?") with (or_unknown (dict (key p))). rewrite fit_ok by exact S1. cbn [obind fst snd].
    apply rest_rounds; auto. refine (Nat.le_trans _ _ _ _ ML). cbn [List.length]. apply le_S, Nat.le_refl.
  Qed.
  (* a conversion at the very beginning leaves a hyphen there *)
  Theorem converted_first l w gs c k p l' : l = (k, c) :: p :: l' -> is_conversion c -> parts l -> lujvo l w -> glosses dict l gs -> fits ("-"%char :: dashed gs) ->
    translate_unknown dict w = Ok ("-"%char :: dashed gs).
  Proof.
    intros -> IC P L G S. pose proof (many_rounds _ _ P L) as ML. unfold translate_unknown. rewrite (quiet_lujvo _ _ P L 1). unfold translate_lujvo.
    destruct (lujvo_sep _ _ _ _ _ P L) as (h & E & SP). inversion P as [|? ? ? M FO PL]; subst.
    inversion G as [|? ? ? ? NC|? ? n d k2 p2 ? t gs' I NC D G']; subst; [exfalso; apply NC; exact IC |].
    rewrite dashed_dashes in S |- *. change ("-"%char :: t ++ dashes gs') with (("-"%char :: t) ++ dashes gs') in S.
    assert (S1 : fits ("-"%char :: t)) by (apply (fits_app _ (dashes gs')); exact S).
    assert (FO2 : form k2 p2) by (inversion PL; assumption).
    destruct (conv_spec _ _ _ I) as (_ & DE & N0 & _). subst d.
    rewrite (step k) by (auto using parts_begun, joined_length). rewrite (piece_conv _ _ _ _ _ _ I). cbn [obind fst snd].
    destruct (List.length (c ++ h ++ joined ((k2, p2) :: l'))) as [|f] eqn:LE; [cbn [List.length] in ML; lia |].
    assert (T : translate_comp dict (key p2) n = Ok (Some t, 0)).
    { apply comp_conv; auto; [pose proof (key_short _ _ FO2); lia |]. change ("-"%char :: t) with (lit "-" ++ t) in S1. apply fits_app in S1. apply S1. }
    rewrite (part_round _ _ _ _ _ [] (Some t) PL NC T S1). cbn [or_unknown app]. destruct l' as [|y l'].
    - inversion G'; subst. cbn [dashes map List.concat]. rewrite app_nil_r. reflexivity.
    - assert (PL' : parts (y :: l')) by (inversion PL; assumption). rewrite (rest_rounds _ _ G' PL'); [reflexivity | cbn [List.length] in ML |- *; lia | exact S].
  Qed.
End LOOP.
