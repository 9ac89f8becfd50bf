From Coq Require Import String Ascii List NArith ZArith Bool Arith Lia.
From Verif Require Import Base DictModel TransModel TransSpec.
Import ListNotations.
Open Scope string_scope.
Open Scope list_scope.

Lemma sapp_assoc (a b c : string) : ((a ++ b) ++ c = a ++ b ++ c)%string.
Proof. induction a as [|x a IH]; cbn; [reflexivity | rewrite IH; reflexivity]. Qed.
Lemma sapp_nil (a : string) : (a ++ "")%string = a.
Proof. induction a as [|x a IH]; cbn; [reflexivity | rewrite IH; reflexivity]. Qed.
Lemma slen_app (a b : string) : String.length (a ++ b) = String.length a + String.length b.
Proof. induction a as [|x a IH]; cbn; [reflexivity | rewrite IH; reflexivity]. Qed.
Lemma loas_app (a b : string) : list_ascii_of_string (a ++ b) = list_ascii_of_string a ++ list_ascii_of_string b.
Proof. induction a as [|x a IH]; cbn; [reflexivity | rewrite IH; reflexivity]. Qed.

Lemma has_in c s : has c s = true <-> letter_in c s.
Proof.
  unfold letter_in. induction s as [|d s IH]; cbn; [split; [discriminate | tauto] |].
  rewrite orb_true_iff, IH, Ascii.eqb_eq. split; intros [A|A]; auto.
Qed.
Lemma has_not c s : has c s = false <-> ~ letter_in c s.
Proof. rewrite <- has_in. destruct (has c s); split; intro; congruence. Qed.
Lemma cut_some c x h p : cut c x = Some (h, p) <-> x = (h ++ String c p)%string /\ ~ letter_in c h.
Proof.
  unfold letter_in. revert h p. induction x as [|d x IH]; intros h p; cbn.
  - split; [discriminate |]. intros (E & _). destruct h; discriminate E.
  - destruct (Ascii.eqb c d) eqn:D.
    + apply Ascii.eqb_eq in D. subst d. split.
      * intro E. injection E as <- <-. split; [reflexivity | tauto].
      * intros (E & N). destruct h as [|e h]; cbn in *; [injection E as ->; reflexivity |].
        injection E as -> _. destruct N. left. reflexivity.
    + apply Ascii.eqb_neq in D. destruct (cut c x) as [(a & b)|] eqn:K.
      * destruct (proj1 (IH a b) eq_refl) as (E & N). split.
        -- intro Q. injection Q as <- <-. split; [cbn; rewrite <- E; reflexivity |]. cbn. intros [Q|Q]; [congruence | tauto].
        -- intros (Q & M). destruct h as [|e h]; cbn in Q; [injection Q as -> _; congruence |].
           injection Q as -> Q. assert (Some (a, b) = Some (h, p)) as X.
           { apply IH. split; [exact Q |]. intro I. apply M. right. exact I. }
           injection X as -> ->. reflexivity.
      * split; [discriminate |]. intros (Q & M). destruct h as [|e h]; cbn in Q; [injection Q as -> _; congruence |].
        injection Q as -> Q. assert (None = Some (h, p)) as X by (apply IH; split; [exact Q |]; intro I; apply M; right; exact I).
        discriminate X.
Qed.
Lemma cut_none c x : cut c x = None <-> ~ letter_in c x.
Proof.
  unfold letter_in. induction x as [|d x IH]; cbn; [tauto |]. destruct (Ascii.eqb c d) eqn:D.
  - apply Ascii.eqb_eq in D. split; [discriminate | intro H; destruct H; auto].
  - apply Ascii.eqb_neq in D. destruct (cut c x) as [(a & b)|].
    + split; [discriminate |]. intro H. assert (~ In c (list_ascii_of_string x)) as X by tauto. apply IH in X. discriminate X.
    + split; [| reflexivity]. intros _ [Q|Q]; [congruence |]. apply (proj1 IH); auto.
Qed.

(* the last letters *)
Lemma last2_app s : forall p q a b, last2 p q (s ++ String b (String a "")) = (Some a, Some b).
Proof. induction s as [|c s IH]; intros; cbn; [reflexivity | apply IH]. Qed.
Lemma tail_cases s : s = "" \/ (exists a, s = one a) \/ exists p b a, s = (p ++ one b ++ one a)%string.
Proof.
  induction s as [|c s [->|[(a & ->)|(p & b & a & ->)]]]; [auto | right; left; exists c; reflexivity | |].
  - right. right. exists "", c, a. reflexivity.
  - right. right. exists (String c p), b, a. reflexivity.
Qed.
Lemma ends_2 p b a : ends (p ++ one b ++ one a) = (Some a, Some b).
Proof. apply last2_app. Qed.
Lemma ends_1 a : ends (one a) = (Some a, None). Proof. reflexivity. Qed.
Lemma snoc_inj p q a b : (p ++ one a = q ++ one b)%string -> p = q /\ a = b.
Proof.
  revert q. induction p as [|c p IH]; intros [|d q] E; cbn in E.
  - injection E as ->. auto.
  - injection E as _ E. destruct q; discriminate E.
  - injection E as _ E. destruct p; discriminate E.
  - injection E as -> E. destruct (IH q E) as (-> & ->). auto.
Qed.

Lemma plural_ok : plural_rule plural_word.
Proof.
  assert (L : forall p a, In a ["s"; "z"; "x"]%char -> plural_word (p ++ one a) = ((p ++ one a) ++ "(es)")%string).
  { intros p a I. unfold plural_word. assert (exists b, ends (p ++ one a) = (Some a, b)) as (b & ->).
    { destruct (tail_cases p) as [->|[(c & ->)|(q & c & d & ->)]]; [eexists; reflexivity | eexists; reflexivity |].
      rewrite !sapp_assoc. exists (Some d). rewrite <- (sapp_assoc q (one c)). apply ends_2. }
    cbn in I. destruct I as [<-|[<-|[<-|[]]]]; reflexivity. }
  constructor.
  - intros p s I. cbn in I. destruct I as [<-|[<-|[<-|[<-|[]]]]].
    + change "s" with (one "s"). rewrite L by (cbn; auto). apply sapp_assoc.
    + change "z" with (one "z"). rewrite L by (cbn; auto). apply sapp_assoc.
    + change "x" with (one "x"). rewrite L by (cbn; auto). apply sapp_assoc.
    + change "ch" with (one "c" ++ one "h")%string. unfold plural_word. rewrite ends_2.
      apply sapp_assoc.
  - intros p c I. change "y" with (one "y"). unfold plural_word. rewrite ends_2. apply has_in in I.
    change (has c consonants) with (has c "bcdfghjklmnpqrstvwxz"). rewrite I. rewrite !sapp_assoc. reflexivity.
  - intros x N M. unfold plural_word. destruct (tail_cases x) as [->|[(a & ->)|(p & b & a & ->)]]; [reflexivity | |].
    + rewrite ends_1. destruct (Ascii.eqb a "s") eqn:A1; [apply Ascii.eqb_eq in A1; subst; destruct (N "" "s"); cbn; auto |].
      destruct (Ascii.eqb a "z") eqn:A2; [apply Ascii.eqb_eq in A2; subst; destruct (N "" "z"); cbn; auto |].
      destruct (Ascii.eqb a "x") eqn:A3; [apply Ascii.eqb_eq in A3; subst; destruct (N "" "x"); cbn; auto |]. reflexivity.
    + rewrite ends_2.
      destruct (Ascii.eqb a "s") eqn:A1; [apply Ascii.eqb_eq in A1; subst; destruct (N (p ++ one b)%string "s"); [cbn; auto | rewrite sapp_assoc; reflexivity] |].
      destruct (Ascii.eqb a "z") eqn:A2; [apply Ascii.eqb_eq in A2; subst; destruct (N (p ++ one b)%string "z"); [cbn; auto | rewrite sapp_assoc; reflexivity] |].
      destruct (Ascii.eqb a "x") eqn:A3; [apply Ascii.eqb_eq in A3; subst; destruct (N (p ++ one b)%string "x"); [cbn; auto | rewrite sapp_assoc; reflexivity] |].
      cbn [orb]. destruct (Ascii.eqb a "h" && Ascii.eqb b "c") eqn:A4.
      { apply andb_true_iff in A4. destruct A4 as (A & B). apply Ascii.eqb_eq in A, B. subst. destruct (N p "ch"); [cbn; auto 6 | reflexivity]. }
      destruct (Ascii.eqb a "y" && has b consonants) eqn:A5; [| reflexivity].
      apply andb_true_iff in A5. destruct A5 as (A & B). apply Ascii.eqb_eq in A. apply has_in in B. subst. destruct (M p b B). reflexivity.
Qed.
Lemma er_ok : er_rule er_word.
Proof.
  assert (T : forall p a, exists b, ends (p ++ one a) = (Some a, b)).
  { intros p a. destruct (tail_cases p) as [->|[(c & ->)|(q & c & d & ->)]]; [eexists; reflexivity | eexists; reflexivity |].
    rewrite !sapp_assoc. exists (Some d). rewrite <- (sapp_assoc q (one c)). apply ends_2. }
  constructor.
  - intro p. unfold er_word. change "e" with (one "e"). destruct (T p "e"%char) as (b & ->). cbn. rewrite sapp_assoc. reflexivity.
  - intros x N. unfold er_word. destruct (tail_cases x) as [->|[(a & ->)|(p & b & a & ->)]]; [reflexivity | |].
    + rewrite ends_1. destruct (Ascii.eqb a "e") eqn:A; [| reflexivity]. apply Ascii.eqb_eq in A. subst. destruct (N "" eq_refl).
    + rewrite ends_2. destruct (Ascii.eqb a "e") eqn:A; [| reflexivity]. apply Ascii.eqb_eq in A. subst.
      destruct (N (p ++ one b)%string). rewrite sapp_assoc. reflexivity.
Qed.
Lemma drop_last_app p b a : drop_last (p ++ one b ++ one a) = (p ++ one b)%string.
Proof.
  induction p as [|c p IH]; [reflexivity |]. cbn [String.append].
  assert (exists d r, (p ++ one b ++ one a)%string = String d r) as (d & r & E) by (destruct p; cbn; eauto).
  rewrite E in *. cbn [drop_last] in *. destruct r; cbn in IH |- *; rewrite <- IH; reflexivity.
Qed.
Lemma ing_ok : ing_rule ing_word.
Proof.
  constructor.
  - intros p c N. change "e" with (one "e"). unfold ing_word. rewrite ends_2. apply has_not in N.
    change (has c vowels) with (has c "aeiou"). rewrite N. cbn [Ascii.eqb andb negb]. 
    replace (("e" =? "e")%char) with true by reflexivity. cbn [andb]. rewrite drop_last_app, sapp_assoc. reflexivity.
  - intros x N. unfold ing_word. destruct (tail_cases x) as [->|[(a & ->)|(p & b & a & ->)]]; [reflexivity | reflexivity |].
    rewrite ends_2. destruct (Ascii.eqb a "e" && negb (has b vowels)) eqn:A; [| reflexivity].
    apply andb_true_iff in A. destruct A as (A & B). apply Ascii.eqb_eq in A. apply negb_true_iff, has_not in B. subst. destruct (N p b B). reflexivity.
Qed.

(* stars *)
Lemma word_end_iff r : is_ok_after_star r = true <-> word_end r.
Proof.
  unfold is_ok_after_star, word_end. destruct r as [|c r]; [tauto |]. rewrite orb_true_iff, Ascii.eqb_eq. reflexivity.
Qed.
Lemma starred_ok word glue f : forall x, String.length x < f -> exists y, starred f word glue x = Ok y /\ ending word glue x y.
Proof.
  induction f as [|f IH]; intros x L; [lia |]. cbn [starred]. destruct (cut "*" x) as [(h & p)|] eqn:C.
  - apply cut_some in C. destruct C as (-> & N). change (String "*" p) with ("*" ++ p)%string in *.
    destruct (is_ok_after_star p) eqn:O.
    + apply word_end_iff in O. destruct (has "*" p) eqn:H.
      * apply has_in in H. destruct (IH p) as (y & E & R); [rewrite slen_app in L; cbn in L; lia |]. rewrite E. cbn [obind].
        eexists. split; [reflexivity |]. apply en_more; auto.
      * apply has_not in H. eexists. split; [reflexivity |]. apply en_last; auto.
    + eexists. split; [reflexivity |]. apply en_plain. intros h' r E S W. apply word_end_iff in W.
      assert (cut "*" (h ++ "*" ++ p) = Some (h, p)) as A by (apply cut_some; auto).
      assert (cut "*" (h ++ "*" ++ p) = Some (h', r)) as B by (apply cut_some; auto). congruence.
  - apply cut_none in C. eexists. split; [reflexivity |]. apply en_plain. intros h r -> S W. apply C.
    unfold letter_in. rewrite loas_app. apply in_or_app. right. left. reflexivity.
Qed.
Lemma ending_fun word glue x y : ending word glue x y -> forall z, ending word glue x z -> y = z.
Proof.
  assert (K : forall h r h' r', starless h -> starless h' -> (h ++ "*" ++ r = h' ++ "*" ++ r')%string -> h = h' /\ r = r').
  { intros h r h' r' S S' E. assert (cut "*" (h ++ "*" ++ r) = Some (h, r)) as A by (apply cut_some; auto).
    assert (cut "*" (h' ++ "*" ++ r') = Some (h', r')) as B by (apply cut_some; auto). rewrite E in A. split; congruence. }
  induction 1 as [x N|h r S W R|h r y S W R E IH]; intros z Z.
  - inversion Z as [x' N' E1|h r S W R E1|h r y S W R E E1]; [reflexivity | |]; subst; destruct (N h r eq_refl S W).
  - inversion Z as [x' N' E1|h' r' S' W' R' E1|h' r' y' S' W' R' E' E1]; subst.
    + destruct (N' h r eq_refl S W).
    + apply K in E1; auto. destruct E1. subst. reflexivity.
    + apply K in E1; auto. destruct E1. subst. contradiction.
  - inversion Z as [x' N' E1|h' r' S' W' R' E1|h' r' y' S' W' R' E' E1]; subst.
    + destruct (N' h r eq_refl S W).
    + apply K in E1; auto. destruct E1. subst. contradiction.
    + apply K in E1; auto. destruct E1. subst. rewrite (IH y' E'). reflexivity.
Qed.
Lemma starred_iff word glue x y : starred (S (String.length x)) word glue x = Ok y <-> ending word glue x y.
Proof.
  destruct (starred_ok word glue (S (String.length x)) x ltac:(lia)) as (z & E & Z). rewrite E. split.
  - intro Q. injection Q as <-. exact Z.
  - intro Q. f_equal. eapply ending_fun; eauto.
Qed.

(* prepositions *)
Lemma skip_blank_spec x : exists b, x = (b ++ skip_blank x)%string /\ Forall (fun c => isspace c = true) (list_ascii_of_string b)
  /\ match skip_blank x with String c _ => isspace c = false | "" => True end.
Proof.
  induction x as [|c x (b & E & F & H)]; [exists ""; cbn; auto |]. cbn [skip_blank]. destruct (isspace c) eqn:C.
  - exists (String c b). cbn. rewrite <- E. auto.
  - exists "". cbn. auto.
Qed.
Lemma skip_blank_app b y : Forall (fun c => isspace c = true) (list_ascii_of_string b) ->
  match y with String c _ => isspace c = false | "" => True end -> skip_blank (b ++ y) = y.
Proof.
  induction b as [|c b IH]; cbn; intros F H.
  - destruct y as [|d y]; [reflexivity |]. cbn. rewrite H. reflexivity.
  - inversion F; subst. rewrite H2. apply IH; auto.
Qed.
Lemma prefix_app w y : prefix w y = true <-> exists t, y = (w ++ t)%string.
Proof.
  revert y. induction w as [|c w IH]; intro y; [split; [exists y; reflexivity | destruct y; reflexivity] |].
  destruct y as [|d y]; [split; [discriminate | intros (t & E); discriminate E] |].
  change (prefix (String c w) (String d y)) with (if ascii_dec c d then prefix w y else false).
  destruct (ascii_dec c d) as [->|D].
  - rewrite IH. cbn [String.append]. split; intros (t & E); exists t; [rewrite E; reflexivity | injection E as E; exact E].
  - split; [discriminate | intros (t & E); injection E as E _; congruence].
Qed.
Lemma prep_iff r : starts_with_preposition r = true <-> begins_prep r.
Proof.
  unfold starts_with_preposition, begins_prep. rewrite !orb_true_iff, !prefix_app.
  destruct (skip_blank_spec r) as (b & E & F & H). split.
  - intros [[[(t & P)|(t & P)]|(t & P)]|(t & P)]; rewrite P in E; [exists b, "in", t | exists b, "at", t | exists b, "with", t | exists b, "through", t];
      (split; [exact E |]; split; [exact F |]; cbn; tauto).
  - intros (b' & w & t & E' & F' & I). assert (skip_blank r = (w ++ t)%string) as ->.
    { rewrite E'. apply skip_blank_app; [exact F' |]. cbn in I. destruct I as [<-|[<-|[<-|[<-|[]]]]]; reflexivity. }
    cbn in I. destruct I as [<-|[<-|[<-|[<-|[]]]]]; eauto 6.
Qed.
Lemma of_glue_ok : of_glue (fun p => if starts_with_preposition p then "" else " of").
Proof.
  intro r. destruct (starts_with_preposition r) eqn:P.
  - apply prep_iff in P. split; [reflexivity | tauto].
  - split; [| reflexivity]. intro B. apply prep_iff in B. congruence.
Qed.

(* the table *)
Lemma starless_word word glue x : starless x -> starred (S (String.length x)) word glue x = Ok (word x).
Proof. intro S. apply cut_none in S. cbn [starred]. rewrite S. reflexivity. Qed.
Lemma basic_starless x : starless x -> basic_trans x = x.
Proof.
  unfold starless, letter_in. induction x as [|c x IH]; cbn; [reflexivity |]. intro N.
  destruct (Ascii.eqb c "*") eqn:C; [apply Ascii.eqb_eq in C; subst; tauto |]. cbn. rewrite IH; [reflexivity | tauto].
Qed.
Lemma table_ok class x ctx w1n : star_ok (table class ctx) x ->
  match table class ctx with
  | None => fix_trans_in_context (String class (String ";" x)) ctx w1n = Ok None
  | Some (a, f, b) => exists y, inflect f x y /\
      fix_trans_in_context (String class (String ";" x)) ctx w1n =
        Ok (Some (a ++ (if uses_noun class ctx && negb (String.eqb w1n "") then w1n else y) ++ b)%string)
  end.
Proof.
  cbn [fix_trans_in_context]. unfold table, uses_noun, make_plural, append_er, append_ing.
  destruct (starred_ok plural_word no_glue (S (String.length x)) x ltac:(lia)) as (yp & Ep & P0).
  destruct (starred_ok er_word (fun p => if starts_with_preposition p then "" else " of") (S (String.length x)) x ltac:(lia)) as (yr & Er & R0).
  destruct (starred_ok ing_word no_glue (S (String.length x)) x ltac:(lia)) as (yg & Eg & G0).
  unfold no_glue in Ep, Eg. rewrite Ep, Er, Eg.
  assert (P : inflect F_plural x yp) by (exists plural_word; split; [apply plural_ok | exact P0]).
  assert (R : inflect F_er x yr) by (exists er_word; eexists; split; [apply er_ok | split; [apply of_glue_ok | exact R0]]).
  assert (G : inflect F_ing x yg) by (exists ing_word; split; [apply ing_ok | exact G0]).
  clear Ep Er Eg P0 R0 G0.
  assert (I : inflect F_plain x x) by reflexivity.
  Local Ltac fin E := eexists; split; [exact E |]; cbn [obind andb negb String.append]; rewrite ?sapp_nil; reflexivity.
  Local Ltac done P R G I := cbn [star_ok]; first [intros _; first [fin P | fin R | fin G] | let S := fresh in intro S; rewrite ?basic_starless by exact S; fin I].
  destruct (Ascii.eqb class "D" || Ascii.eqb class "E") eqn:C1.
  { cbn [orb andb]. destruct ctx; cbn [andb]; destruct (String.eqb w1n ""); cbn [negb obind]; done P R G I. }
  destruct (Ascii.eqb class "S") eqn:C2.
  { cbn [orb andb]. destruct ctx; cbn [andb]; destruct (String.eqb w1n ""); cbn [negb obind]; done P R G I. }
  cbn [orb andb]. destruct (Ascii.eqb class "A"); [destruct ctx; cbn [obind]; done P R G I |].
  destruct (Ascii.eqb class "P"); [destruct ctx; done P R G I |].
  destruct (Ascii.eqb class "R"); [destruct ctx; done P R G I |].
  destruct (Ascii.eqb class "I"); [destruct ctx; cbn [obind]; done P R G I |]. reflexivity.
Qed.
