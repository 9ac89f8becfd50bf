(* The scanner of the word glosser: the words. *)
From Coq Require Import String Ascii List NArith ZArith Bool Arith Lia.
From Verif Require Import Base LayoutModel LujvoSpec CmModel CmSpec CmProofs CmProofs2 CmProofs3 CmProofs5.
Import ListNotations.
Open Scope list_scope.

(* ---- the first rule that matches a text ---- *)
Inductive firstm : list (re * act) -> txt -> act -> Prop :=
| fm_here r a l w : matches r w -> firstm ((r, a) :: l) w a
| fm_next r b l w a : ~ matches r w -> firstm l w a -> firstm ((r, b) :: l) w a.
Lemma firstm_once l w a : firstm l w a -> forall b, firstm l w b -> a = b.
Proof. induction 1; intros b' H'; inversion H'; subst; try contradiction; auto. Qed.
Lemma firstm_split l r a l' w : matches r w -> (forall r' a', In (r', a') l -> ~ matches r' w) -> firstm (l ++ (r, a) :: l') w a.
Proof. induction l as [|[r' a'] l IH]; intros M N; cbn [app]; [apply fm_here; exact M |]. apply fm_next; [eapply N; left; reflexivity |]. apply IH; [exact M | intros; eapply N; right; eassumption]. Qed.
Lemma match_dec w : forall r, matches r w \/ ~ matches r w.
Proof.
  induction w as [|c w IH]; intro r.
  - destruct (nullable r) eqn:N; [left; apply null_ok; exact N | right; intro M; apply null_ok in M; congruence].
  - destruct (IH (deriv c r)) as [M|M]; rewrite deriv_ok in M; auto.
Qed.

(* ---- what the patterns match ---- *)
Lemma m_chr_inv f x : matches (Chr f) x <-> exists c, x = [c] /\ f c = true.
Proof. split; [intro M; inversion M; eauto | intros (c & -> & H); constructor; exact H]. Qed.
Lemma m_cat_inv a b x : matches (Cat a b) x <-> exists y z, x = y ++ z /\ matches a y /\ matches b z.
Proof. split; [intro M; inversion M; subst; eauto | intros (y & z & -> & A & B); constructor; assumption]. Qed.
Lemma m_alt_inv a b x : matches (Alt a b) x <-> matches a x \/ matches b x.
Proof. split; [intro M; inversion M; auto | intros [H|H]; [apply m_altl | apply m_altr]; exact H]. Qed.
Lemma m_eps_inv x : matches Eps x <-> x = [].
Proof. split; [intro M; inversion M; auto | intros ->; constructor]. Qed.
Lemma m_one c x : matches (one c) x <-> x = [c].
Proof. unfold one. rewrite m_chr_inv. split; [intros (d & -> & E); apply Ascii.eqb_eq in E; subst; reflexivity | intros ->; exists c; split; [reflexivity | apply Ascii.eqb_refl]]. Qed.
Lemma m_C x : matches C_ x <-> exists c, x = [c] /\ cons c = true.
Proof. apply m_chr_inv. Qed.
Lemma m_V x : matches V_ x <-> exists c, x = [c] /\ vow c = true.
Proof. apply m_chr_inv. Qed.
Lemma m_opt a x : matches (opt a) x <-> matches a x \/ x = [].
Proof. unfold opt. rewrite m_alt_inv, m_eps_inv. reflexivity. Qed.
Lemma m_L x : matches L_ x <-> exists c, x = [c] /\ lojban_letter c = true.
Proof.
  unfold L_. rewrite !m_alt_inv, m_C, m_V, !m_one. unfold lojban_letter. split.
  - intros [(c & -> & H)|[(c & -> & H)|[->| ->]]]; eexists; (split; [reflexivity |]); rewrite ?H, ?orb_true_r; reflexivity.
  - intros (c & -> & H). destruct (cons c) eqn:E1; [eauto |]. destruct (vow c) eqn:E2; [eauto |]. cbn [orb] in H. right; right.
    destruct (Ascii.eqb_spec c "y") as [->|]; [auto |]. destruct (Ascii.eqb_spec c "'") as [->|]; [auto | discriminate H].
Qed.
Lemma star_len a : forall n x, List.length x <= n -> matches (Star a) x -> x = [] \/ exists c y z, x = c :: y ++ z /\ matches a (c :: y) /\ matches (Star a) z /\ List.length z < List.length x.
Proof.
  intros n x _ M. destruct x as [|c x]; [auto | right]. apply star_cons in M. destruct M as (y & z & -> & A & B). exists c, y, z. repeat split; auto. cbn [List.length]. rewrite app_length. lia.
Qed.
Lemma m_letters x : matches (Star L_) x <-> forallb lojban_letter x = true.
Proof.
  split.
  - induction x as [x IH] using (well_founded_induction (Wf_nat.well_founded_ltof _ (@List.length ascii))). intro M.
    destruct (star_len _ _ x (le_n _) M) as [->|(c & y & z & -> & A & B & L)]; [reflexivity |]. apply m_L in A. destruct A as (d & E & D). injection E as -> ->. cbn [app forallb].
    rewrite D. cbn [andb]. apply IH; [unfold ltof; exact L | exact B].
  - induction x as [|c x IH]; intro H; [constructor |]. cbn [forallb] in H. apply andb_true_iff in H. destruct H as [H1 H2]. change (c :: x) with ([c] ++ x). constructor; [apply m_L; eauto | auto].
Qed.
Lemma m_plus_letters x : matches (plus L_) x <-> word x.
Proof.
  unfold plus. rewrite m_cat_inv. split.
  - intros (y & z & -> & A & B). apply m_L in A. destruct A as (c & -> & C). apply m_letters in B. split; [discriminate |]. cbn [app forallb]. rewrite C, B. reflexivity.
  - intros [N F]. destruct x as [|c x]; [congruence |]. cbn [forallb] in F. apply andb_true_iff in F. destruct F. exists [c], x. split; [reflexivity |]. split; [apply m_L; eauto | apply m_letters; assumption].
Qed.

(* ---- a piece of text and nothing more is taken ---- *)
Fixpoint matchb (r : re) (w : txt) : bool := match w with [] => nullable r | c :: w => matchb (deriv c r) w end.
Lemma matchb_ok w : forall r, matchb r w = true <-> matches r w.
Proof. induction w as [|c w IH]; intro r; cbn [matchb]; [apply null_ok | rewrite IH; apply deriv_ok]. Qed.
Definition single (r : re) : bool := match r with Chr _ => true | _ => false end.
Lemma firstm_in l w a : firstm l w a -> exists r, In (r, a) l /\ matches r w.
Proof. induction 1 as [r a l w M|r b l w a N F (r' & I & M)]; [exists r; split; [left; reflexivity | exact M] | exists r'; split; [right; exact I | exact M]]. Qed.
Lemma best_is rules w s a : firstm rules w a ->
  (match w, s with c0 :: _, c :: _ => forall r b, In (r, b) rules -> uses c0 r = true -> uses c r = true -> single r = true | [], _ => False | _, [] => True end) ->
  best rules (w ++ s) = Some (List.length w, a).
Proof.
  intros F AP. destruct w as [|c0 w0] eqn:EW; [destruct AP |]. rewrite <- EW in *.
  assert (PRE : firstn (List.length w) (w ++ s) = w) by (rewrite firstn_app, firstn_all, Nat.sub_diag; cbn [firstn]; apply app_nil_r).
  destruct (firstm_in _ _ _ F) as (r0 & I0 & M0).
  destruct (best rules (w ++ s)) as [[n b]|] eqn:B; [| exfalso; apply (best_none _ _ B r0 a (List.length w) I0); [rewrite app_length; lia | rewrite PRE; exact M0]].
  apply best_some in B. destruct B as (LN & l & r & l' & ER & M & BEF & AFT).
  assert (GE : List.length w <= n).
  { destruct (Nat.le_gt_cases (List.length w) n) as [|G]; [assumption | exfalso]. apply (AFT r0 a (List.length w) I0 G); [rewrite app_length; lia | rewrite PRE; exact M0]. }
  assert (EQ : n = List.length w).
  { destruct (Nat.eq_dec n (List.length w)) as [|NQ]; [assumption | exfalso]. destruct s as [|c s]; [rewrite app_length in LN; cbn [List.length] in LN; lia |].
    assert (I1 : In c (firstn n (w ++ c :: s))).
    { rewrite firstn_app. apply in_or_app. right. destruct (n - List.length w) as [|k] eqn:K; [lia |]. left. reflexivity. }
    assert (I2 : In c0 (firstn n (w ++ c :: s))).
    { rewrite EW in *. destruct n as [|n]; [cbn [List.length] in GE; lia |]. left. reflexivity. }
    assert (IR : In (r, b) rules) by (rewrite ER; apply in_or_app; right; left; reflexivity).
    specialize (AP _ _ IR (uses_ok _ _ _ M I2) (uses_ok _ _ _ M I1)). destruct r; try discriminate AP.
    apply m_chr_inv in M. destruct M as (d & E & _). assert (Q : List.length (firstn n (w ++ c :: s)) = 1) by (rewrite E; reflexivity).
    rewrite firstn_length_le in Q by exact LN. rewrite EW in *. cbn [List.length] in *. lia. }
  subst n. rewrite PRE in *. assert (a = b); [| subst; reflexivity]. apply (firstm_once _ _ _ F). rewrite ER. apply firstm_split; assumption.
Qed.
Definition seps : list ascii := [" "; "("; ")"; "["; "]"; "009"; "010"; "013"]%char.
Definition all_letters : txt := lit "bcdfgjklmnprstvxzaeiouy'.".
Lemma letter_in c : lojban_letter c = true -> In c all_letters.
Proof.
  unfold lojban_letter. intro H. destruct (cons c) eqn:E1.
  - unfold cons, among in E1. apply existsb_exists in E1. destruct E1 as (x & I & E). apply Ascii.eqb_eq in E. subst x.
    change all_letters with (text "bcdfgjklmnprstvxz" ++ lit "aeiouy'."). apply in_or_app. auto.
  - destruct (vow c) eqn:E2.
    + unfold vow, among in E2. apply existsb_exists in E2. destruct E2 as (x & I & E). apply Ascii.eqb_eq in E. subst x.
      change all_letters with (text "bcdfgjklmnprstvxz" ++ text "aeiou" ++ lit "y'."). apply in_or_app. right. apply in_or_app. auto.
    + cbn [orb] in H. change all_letters with (text "bcdfgjklmnprstvxzaeiou" ++ lit "y'."). apply in_or_app. right.
      destruct (Ascii.eqb_spec c "y") as [->|]; [cbn; auto |]. destruct (Ascii.eqb_spec c "'") as [->|]; [cbn; auto | discriminate H].
Qed.
Lemma ended_sep c s : ended (c :: s) -> In c seps.
Proof.
  cbn [ended]. intros [H|[->|[->| ->]]]; [| cbn; auto 9 ..]. unfold among in H. apply existsb_exists in H. destruct H as (x & I & E). apply Ascii.eqb_eq in E. subst x.
  cbn in I. cbn. intuition.
Qed.
Lemma apart : forallb (fun x => forallb (fun s => if uses s (fst x) then if single (fst x) then true else forallb (fun c => negb (uses c (fst x))) all_letters else true) seps) initial_rules = true.
Proof. vm_compute. reflexivity. Qed.
Lemma word_best w s a : w <> [] -> (forall c, In c w -> In c all_letters) -> ended s -> firstm initial_rules w a -> best initial_rules (w ++ s) = Some (List.length w, a).
Proof.
  intros NE W ES F. apply best_is; [exact F |]. destruct w as [|c0 w]; [congruence |]. destruct s as [|c s]; [exact I |]. intros r b IR U0 U1.
  pose proof apart as AP. rewrite forallb_forall in AP. specialize (AP _ IR). cbn [fst] in AP. rewrite forallb_forall in AP. specialize (AP c (ended_sep _ _ ES)). rewrite U1 in AP.
  destruct (single r); [reflexivity |]. rewrite forallb_forall in AP. specialize (AP c0 (W c0 (or_introl eq_refl))). rewrite U0 in AP. discriminate AP.
Qed.

(* ---- ends ---- *)
Fixpoint last_of (c : ascii) (r : re) : bool :=
  match r with Nul | Eps => false | Chr f => f c | Cat a b => last_of c b || (nullable b && last_of c a) | Alt a b => last_of c a || last_of c b | Star a => last_of c a end.
Lemma last_ok r x c : matches r (x ++ [c]) -> last_of c r = true.
Proof.
  intro M. remember (x ++ [c]) as s eqn:E. revert x E.
  assert (SN : forall (y z x : txt), y ++ z = x ++ [c] -> z = [] /\ y = x ++ [c] \/ exists z', z = z' ++ [c]).
  { intros y z. destruct z as [|z0 z] using rev_ind; intros x E; [rewrite app_nil_r in E; auto |]. right. rewrite app_assoc in E. apply app_inj_tail in E. destruct E as [_ ->]. eauto. }
  induction M as [|f d H|a b y z A IA B IB|a b y A IA|a b y A IA|a|a y z A IA B IB]; intros x E; cbn [last_of].
  - destruct x; discriminate E.
  - destruct x as [|? [|? x]]; cbn in E; [injection E as ->; exact H | discriminate E | discriminate E].
  - destruct (SN _ _ _ E) as [[-> ->]|(z' & ->)]; [| rewrite (IB _ eq_refl); reflexivity]. apply null_ok in B. rewrite B, (IA _ eq_refl). rewrite orb_true_r. reflexivity.
  - rewrite (IA _ E). reflexivity.
  - rewrite (IA _ E). apply orb_true_r.
  - destruct x; discriminate E.
  - destruct (SN _ _ _ E) as [[-> ->]|(z' & ->)]; [apply (IA _ eq_refl) | apply (IB _ eq_refl)].
Qed.
Lemma cons_ends c : cons c = true -> last_of c BM = false /\ last_of c CM_ = false /\ last_of c (Cat C_ (Cat (plus L_) V_)) = false.
Proof. intro H. letters H; repeat split; reflexivity. Qed.
Lemma not_by_end r w c : last_of c r = false -> ~ matches r (w ++ [c]).
Proof. intros L M. apply last_ok in M. congruence. Qed.

(* ---- the kinds ---- *)
Definition name_re : re := Cat (Cat (opt (one ".")) (Cat (Star LC) C_)) (opt (one ".")).
Definition brivla_re : re := Cat C_ (Cat (plus L_) V_).
Lemma star_of_letters x : forallb lojban_letter x = true -> matches (Star LC) x.
Proof.
  induction x as [|c x IH]; intro H; [constructor |]. cbn [forallb] in H. apply andb_true_iff in H. destruct H as [H1 H2]. change (c :: x) with ([c] ++ x). constructor; [| auto].
  unfold LC. change [c] with ([c] ++ []). constructor; [apply m_L; eauto | apply m_opt; auto].
Qed.
Lemma name_ok w : word w -> (matches name_re w <-> ends_in cons w).
Proof.
  intros [NE W]. split.
  - intro M. unfold name_re in M. apply m_cat_inv in M. destruct M as (x & y & -> & A & B). apply m_opt in B. destruct B as [B| ->].
    + apply m_one in B. subst y. rewrite forallb_app in W. apply andb_true_iff in W. destruct W as [_ W]. discriminate W.
    + rewrite app_nil_r. apply m_cat_inv in A. destruct A as (d & z & -> & _ & A). apply m_cat_inv in A. destruct A as (l & c & -> & _ & A). apply m_C in A. destruct A as (c' & -> & C).
      exists (d ++ l), c'. split; [apply app_assoc | exact C].
  - intros (v & c & -> & C). rewrite forallb_app in W. apply andb_true_iff in W. destruct W as [W _]. unfold name_re. rewrite <- (app_nil_r (v ++ [c])). constructor; [| apply m_opt; auto].
    change (v ++ [c]) with ([] ++ v ++ [c]). constructor; [apply m_opt; auto |]. constructor; [apply star_of_letters; exact W | apply m_C; eauto].
Qed.
Lemma brivla_ok w : matches brivla_re w <-> exists c r z, w = c :: r ++ [z] /\ cons c = true /\ word r /\ vow z = true.
Proof.
  unfold brivla_re. rewrite m_cat_inv. split.
  - intros (x & y & -> & A & B). apply m_C in A. destruct A as (c & -> & C). apply m_cat_inv in B. destruct B as (r & z & -> & R & Z). apply m_plus_letters in R. apply m_V in Z. destruct Z as (z' & -> & Z). exists c, r, z'. auto.
  - intros (c & r & z & -> & C & R & Z). exists [c], (r ++ [z]). split; [reflexivity |]. split; [apply m_C; eauto |]. constructor; [apply m_plus_letters; exact R | apply m_V; eauto].
Qed.
Lemma vvy_ok x : matches VVY x <-> vowels x.
Proof.
  unfold VVY, VV. rewrite m_alt_inv, m_cat_inv, m_one. split.
  - intros [(y & z & -> & A & B)| ->]; [| apply v_y]. apply m_V in A. destruct A as (a & -> & A). apply m_opt in B. destruct B as [B| ->]; [apply m_V in B; destruct B as (b & -> & B) |]; constructor; assumption.
  - intros [a A|a b A B|]; [left; exists [a], []; repeat split; [apply m_V; eauto | apply m_opt; auto] | left; exists [a], [b]; repeat split; [apply m_V; eauto | apply m_opt; left; apply m_V; eauto] | auto].
Qed.
Lemma nucleus_ok x : matches VCC x <-> nucleus x.
Proof.
  unfold VCC. rewrite m_cat_inv. split.
  - intros (y & z & -> & A & B). apply vvy_ok in A. revert y A B. induction z as [z IH] using (well_founded_induction (Wf_nat.well_founded_ltof _ (@List.length ascii))). intros y A B.
    destruct (star_len _ _ z (le_n _) B) as [->|(c & u & v & E & P & Q & L)]; [rewrite app_nil_r; constructor; exact A |].
    apply m_cat_inv in P. destruct P as (p & q & E2 & P1 & P2). apply m_one in P1. subst p. cbn [app] in E2. injection E2 as -> ->. rewrite E. constructor; [exact A |]. apply vvy_ok in P2. apply IH; auto.
  - induction 1 as [v V|v n V N IH].
    + exists v, []. rewrite app_nil_r. repeat split; [apply vvy_ok; exact V | constructor].
    + destruct IH as (y & z & -> & A & B). exists v, (("'"%char :: y) ++ z). split; [reflexivity |]. split; [apply vvy_ok; exact V |]. constructor; [| exact B].
      change ("'"%char :: y) with (["'"%char] ++ y). constructor; [apply m_one; reflexivity | exact A].
Qed.
Lemma syllable_ok x : matches CCC x <-> syllable x.
Proof.
  change CCC with (Cat C_ VCC). rewrite m_cat_inv. split.
  - intros (y & z & -> & A & B). apply m_C in A. destruct A as (c & -> & C). apply nucleus_ok in B. exists c, z. auto.
  - intros (c & n & -> & C & N). exists [c], n. repeat split; [apply m_C; eauto | apply nucleus_ok; exact N].
Qed.
Lemma tail_ok x : forallb lojban_letter x = true -> (matches CMT x <-> exists us, Forall syllable us /\ x = List.concat us).
Proof.
  intro W. split.
  - unfold CMT. revert W. induction x as [x IH] using (well_founded_induction (Wf_nat.well_founded_ltof _ (@List.length ascii))). intros W M.
    destruct (star_len _ _ x (le_n _) M) as [->|(c & y & z & E & A & B & L)]; [exists []; auto |]. subst x. change (c :: y ++ z) with ((c :: y) ++ z) in W. rewrite forallb_app in W. apply andb_true_iff in W. destruct W as [W1 W2].
    destruct (IH z L W2 B) as (us & F & ->). apply m_alt_inv in A. destruct A as [A|A].
    + apply syllable_ok in A. exists ((c :: y) :: us). split; [constructor; assumption | reflexivity].
    + apply m_cat_inv in A. destruct A as (p & q & E & P & _). apply m_one in P. subst p. cbn [app] in E. injection E as -> _. cbn [forallb] in W1. discriminate W1.
  - intros (us & F & ->). clear W. induction F as [|u us U F IH]; [constructor |]. cbn [List.concat]. constructor; [apply m_altl, syllable_ok; exact U | exact IH].
Qed.
Lemma cm_ok w : word w -> (matches CM_ w <-> cmavo_word w).
Proof.
  intros [NE W]. unfold CM_, CM1, CM2. rewrite m_alt_inv, !m_cat_inv. split.
  - intros [(y & z & -> & A & B)|(d & y & -> & D & M)].
    + rewrite forallb_app in W. apply andb_true_iff in W. destruct W as [W1 W2]. apply tail_ok in B; [| exact W2]. destruct B as (us & F & ->). apply syllable_ok in A. exists y, us. auto.
    + apply m_opt in D. destruct D as [D| ->]; [apply m_one in D; subst d; cbn [app forallb] in W; discriminate W |]. cbn [app] in *. apply m_cat_inv in M. destruct M as (n & z & -> & A & B).
      rewrite forallb_app in W. apply andb_true_iff in W. destruct W as [W1 W2]. apply tail_ok in B; [| exact W2]. destruct B as (us & F & ->). apply nucleus_ok in A. exists n, us. auto.
  - intros (u & us & [U|U] & F & ->); cbn [List.concat] in *; rewrite forallb_app in W; apply andb_true_iff in W; destruct W as [W1 W2]; assert (T : matches CMT (List.concat us)) by (apply tail_ok; eauto).
    + left. exists u, (List.concat us). repeat split; [apply syllable_ok; exact U | exact T].
    + right. exists [], (u ++ List.concat us). repeat split; [apply m_opt; auto |]. constructor; [apply nucleus_ok; exact U | exact T].
Qed.
(* two consonants together *)
Fixpoint clus (w : txt) : bool := match w with a :: ((b :: _) as t) => cons a && cons b || clus t | _ => false end.
Lemma clus_app x a b y : cons a = true -> cons b = true -> clus (x ++ a :: b :: y) = true.
Proof.
  intros A B. induction x as [|c x IH]; cbn [app]; [cbn [clus]; rewrite A, B; reflexivity |]. cbn [clus]. destruct (x ++ a :: b :: y) eqn:E; [destruct x; discriminate E |]. rewrite IH. apply orb_true_r.
Qed.
Definition noncons (n : txt) : Prop := n <> [] /\ forallb (fun c => negb (cons c)) n = true.
Lemma vow_cons c : vow c = true -> cons c = false.
Proof. intro H. letters H. Qed.
Lemma nucleus_noncons n : nucleus n -> noncons n.
Proof.
  assert (V : forall v, vowels v -> noncons v) by (intros v [a A|a b A B|]; (split; [discriminate |]); cbn [forallb]; rewrite ?(vow_cons a), ?(vow_cons b) by assumption; reflexivity).
  induction 1 as [v H|v n H N [NE F]]; [auto |]. destruct (V _ H) as [VE VF]. split; [destruct v; discriminate |]. rewrite forallb_app, VF. cbn [forallb]. rewrite F. reflexivity.
Qed.
Lemma clus_noncons n t : noncons n -> clus (n ++ t) = clus t.
Proof.
  intros [_ F]. induction n as [|c n IH]; [reflexivity |]. cbn [forallb] in F. apply andb_true_iff in F. destruct F as [C F]. cbn [app]. rewrite <- (IH F). cbn [clus].
  destruct (n ++ t); [reflexivity |]. destruct (cons c); [discriminate C | reflexivity].
Qed.
Lemma clus_syllable c n t : noncons n -> clus (c :: n ++ t) = clus t.
Proof.
  intros N. rewrite <- (clus_noncons _ t N). destruct N as [NE F]. destruct n as [|d n]; [congruence |]. cbn [forallb] in F. apply andb_true_iff in F. destruct F as [D _]. cbn [app clus].
  destruct (cons d); [discriminate D |]. rewrite andb_false_r. reflexivity.
Qed.
Lemma cmavo_clus w : cmavo_word w -> clus w = false.
Proof.
  intros (u & us & U & F & ->). assert (R : clus (List.concat us) = false).
  { induction F as [|v us (c & n & -> & _ & N) F IH]; [reflexivity |]. cbn [List.concat app]. rewrite (clus_syllable _ _ _ (nucleus_noncons _ N)). exact IH. }
  cbn [List.concat]. destruct U as [(c & n & -> & _ & N)|N]; cbn [app]; [rewrite (clus_syllable _ _ _ (nucleus_noncons _ N)) | rewrite (clus_noncons _ _ (nucleus_noncons _ N))]; exact R.
Qed.
Lemma bm3_ok w : matches BM3 w <-> (cvcy w /\ word w).
Proof.
  unfold BM3. split.
  - intro M. apply m_cat_inv in M. destruct M as (x1 & w1 & -> & A & M). apply m_C in A. destruct A as (a & -> & A).
    apply m_cat_inv in M. destruct M as (x2 & w2 & -> & V & M). apply m_V in V. destruct V as (v & -> & V). apply m_cat_inv in M. destruct M as (x3 & w3 & -> & B & M). apply m_C in B. destruct B as (b & -> & B).
    apply m_cat_inv in M. destruct M as (x4 & w4 & -> & Y & M). apply m_one in Y. subst x4. apply m_cat_inv in M. destruct M as (x5 & w5 & -> & C & M). apply m_C in C. destruct C as (c & -> & C).
    apply m_cat_inv in M. destruct M as (r & z' & -> & R & Z). apply m_plus_letters in R. apply m_V in Z. destruct Z as (z & -> & Z). destruct R as [RN RF]. split.
    + exists a, v, b, c, r, z. repeat split; auto.
    + split; [discriminate |]. cbn [app forallb]. rewrite forallb_app, RF. cbn [forallb]. unfold lojban_letter. rewrite A, V, B, C, Z. rewrite !orb_true_r. reflexivity.
  - intros [(a & v & b & c & r & z & -> & A & V & B & C & RN & Z) [_ W]]. cbn [forallb] in W. apply andb_true_iff in W. destruct W as [_ W]. apply andb_true_iff in W. destruct W as [_ W].
    apply andb_true_iff in W. destruct W as [_ W]. apply andb_true_iff in W. destruct W as [_ W]. apply andb_true_iff in W. destruct W as [_ W]. rewrite forallb_app in W. apply andb_true_iff in W. destruct W as [W _].
    change (a :: v :: b :: "y"%char :: c :: r ++ [z]) with ([a] ++ [v] ++ [b] ++ lit "y" ++ [c] ++ r ++ [z]).
    constructor; [apply m_C; eauto |]. constructor; [apply m_V; eauto |]. constructor; [apply m_C; eauto |]. constructor; [apply m_one; reflexivity |]. constructor; [apply m_C; eauto |].
    constructor; [apply m_plus_letters; split; assumption | apply m_V; eauto].
Qed.
Lemma cnr_cons x : matches CNR x -> exists c, x = [c] /\ cons c = true.
Proof.
  unfold CNR, any_of. rewrite m_chr_inv. intros (c & -> & H). exists c. split; [reflexivity |]. unfold cons, among. apply existsb_exists in H. destruct H as (y & I & E). apply Ascii.eqb_eq in E. subst y.
  cbn in I. repeat (destruct I as [<-|I]; [reflexivity |]). destruct I.
Qed.
Lemma bm12_clus w : matches BM1 w \/ matches BM2 w -> clus w = true.
Proof.
  intros [M|M]; unfold BM1, BM2 in M; apply m_cat_inv in M; destruct M as (x1 & w1 & -> & _ & M); apply m_cat_inv in M; destruct M as (x2 & w2 & -> & _ & M);
    apply m_cat_inv in M; destruct M as (x3 & w3 & -> & _ & M); apply m_cat_inv in M; destruct M as (x4 & w4 & -> & _ & M); apply m_cat_inv in M; destruct M as (x5 & w5 & -> & R & M);
    apply m_cat_inv in M; destruct M as (x6 & w6 & -> & C & M); apply m_one in R; subst x5; rewrite !app_assoc.
  - apply cnr_cons in C. destruct C as (c & -> & C). rewrite <- (app_assoc _ [c]), <- (app_assoc _ ["r"%char]). cbn [app]. apply clus_app; [reflexivity | exact C].
  - apply m_one in C. subst x6. rewrite <- (app_assoc _ ["r"%char]), <- (app_assoc _ ["n"%char]). cbn [app]. apply clus_app; reflexivity.
Qed.
Lemma rules_are : exists l, initial_rules = (BM, Gather TT_BRIVLA) :: (CM_, Gather TT_CMAVO) :: (brivla_re, Gather TT_BRIVLA) :: (name_re, Gather TT_CMENE) :: (plus L_, Gather Fell) :: l.
Proof. eexists. reflexivity. Qed.

Lemma dot_ends : last_of "." BM = false /\ last_of "." CM_ = false /\ last_of "." brivla_re = false.
Proof. repeat split; reflexivity. Qed.
Lemma first_dotted_name d1 d2 w : word w -> ends_in cons w -> firstm initial_rules (dot d1 ++ w ++ dot d2) (Gather TT_CMENE).
Proof.
  intros W E. destruct rules_are as (l & ->). destruct E as (v & c & -> & C). destruct W as [_ W]. rewrite forallb_app in W. apply andb_true_iff in W. destruct W as [W _].
  assert (N : matches name_re (dot d1 ++ (v ++ [c]) ++ dot d2)).
  { unfold name_re. rewrite app_assoc. constructor; [constructor; [| constructor; [apply star_of_letters; exact W | apply m_C; eauto]] |]; apply m_opt; [destruct d1 | destruct d2]; cbn [dot]; auto; left; apply m_one; reflexivity. }
  destruct d2; cbn [dot] in *.
  - rewrite app_assoc in *. destruct dot_ends as (E1 & E2 & E3). apply fm_next; [apply not_by_end; exact E1 |]. apply fm_next; [apply not_by_end; exact E2 |]. apply fm_next; [apply not_by_end; exact E3 |]. apply fm_here. exact N.
  - rewrite app_nil_r, app_assoc in *. destruct (cons_ends _ C) as (E1 & E2 & E3). apply fm_next; [apply not_by_end; exact E1 |]. apply fm_next; [apply not_by_end; exact E2 |]. apply fm_next; [apply not_by_end; exact E3 |]. apply fm_here. exact N.
Qed.
Lemma first_dotted_cmavo n us : nucleus n -> Forall syllable us -> firstm initial_rules ("."%char :: List.concat (n :: us)) (Gather TT_CMAVO).
Proof.
  intros N F. destruct rules_are as (l & ->). apply fm_next; [intro M; assert (Q := uses_ok _ _ "."%char M (or_introl eq_refl)); discriminate Q |]. apply fm_here. unfold CM_, CM2. apply m_altr.
  change ("."%char :: List.concat (n :: us)) with (["."%char] ++ n ++ List.concat us). constructor; [apply m_opt; left; apply m_one; reflexivity |]. constructor; [apply nucleus_ok; exact N |].
  unfold CMT. induction F as [|u us U F IH]; [constructor |]. cbn [List.concat]. constructor; [apply m_altl, syllable_ok; exact U | exact IH].
Qed.
Lemma first_name w : word w -> ends_in cons w -> firstm initial_rules w (Gather TT_CMENE).
Proof.
  intros W E. destruct rules_are as (l & ->). assert (N : matches name_re w) by (apply name_ok; assumption). destruct E as (v & c & -> & C). destruct (cons_ends _ C) as (E1 & E2 & E3).
  apply fm_next; [apply not_by_end; exact E1 |]. apply fm_next; [apply not_by_end; exact E2 |]. apply fm_next; [apply not_by_end; exact E3 |]. apply fm_here. exact N.
Qed.
Lemma first_brivla w c r z : word w -> w = c :: r ++ [z] -> cons c = true -> r <> [] -> vow z = true -> cvcy w \/ ~ cmavo_word w -> firstm initial_rules w (Gather TT_BRIVLA).
Proof.
  intros W E C R Z K. destruct rules_are as (l & ->). destruct (match_dec w BM) as [M|M]; [apply fm_here; exact M |]. apply fm_next; [exact M |].
  assert (NC : ~ cmavo_word w).
  { destruct K as [K|K]; [| exact K]. exfalso. apply M. unfold BM. apply m_altr, m_altr, bm3_ok. auto. }
  apply fm_next; [rewrite cm_ok by exact W; exact NC |]. apply fm_here. apply brivla_ok. exists c, r, z. repeat split; auto. destruct W as [_ W]. subst w. cbn [forallb] in W. apply andb_true_iff in W. destruct W as [_ W].
  rewrite forallb_app in W. apply andb_true_iff in W. apply W.
Qed.
Lemma first_cmavo w : word w -> cmavo_word w -> ~ cvcy w -> firstm initial_rules w (Gather TT_CMAVO).
Proof.
  intros W K NY. destruct rules_are as (l & ->). apply fm_next; [| apply fm_here, cm_ok; assumption].
  intro M. pose proof (cmavo_clus _ K) as CL. unfold BM in M. apply m_alt_inv in M. rewrite m_alt_inv in M. destruct M as [M|[M|M]].
  - rewrite bm12_clus in CL by auto. discriminate CL.
  - rewrite bm12_clus in CL by auto. discriminate CL.
  - apply bm3_ok in M. apply NY, M.
Qed.
Lemma bm_is_brivla w : matches BM w -> matches brivla_re w.
Proof.
  assert (LV : forall a v, vow a = true -> forallb lojban_letter v = true -> forallb lojban_letter (a :: v) = true) by (intros a v A V; cbn [forallb]; unfold lojban_letter at 1; rewrite A, V; rewrite orb_true_r; reflexivity).
  assert (LC_ : forall a v, cons a = true -> forallb lojban_letter v = true -> forallb lojban_letter (a :: v) = true) by (intros a v A V; cbn [forallb]; unfold lojban_letter at 1; rewrite A, V; reflexivity).
  intro M. unfold BM in M. apply m_alt_inv in M. rewrite m_alt_inv in M. apply brivla_ok. destruct M as [M|[M|M]].
  1,2: unfold BM1, BM2 in M; apply m_cat_inv in M; destruct M as (x1 & w1 & -> & A & M); apply m_C in A; destruct A as (a & -> & A); apply m_cat_inv in M; destruct M as (x2 & w2 & -> & B & M); apply m_V in B; destruct B as (b & -> & B);
    apply m_cat_inv in M; destruct M as (x3 & w3 & -> & H & M); apply m_opt in H; rewrite m_one in H; apply m_cat_inv in M; destruct M as (x4 & w4 & -> & D & M); apply m_V in D; destruct D as (d & -> & D);
    apply m_cat_inv in M; destruct M as (x5 & w5 & -> & R & M); apply m_one in R; subst x5; apply m_cat_inv in M; destruct M as (x6 & w6 & -> & C & M);
    (assert (C' : exists c, x6 = [c] /\ cons c = true) by (first [apply cnr_cons; exact C | apply m_one in C; subst x6; eauto])); destruct C' as (c & -> & C');
    apply m_cat_inv in M; destruct M as (r & z' & -> & R & Z); apply m_plus_letters in R; apply m_V in Z; destruct Z as (z & -> & Z); destruct R as [_ R].
  - exists a, (([b] ++ x3 ++ [d; "r"%char; c]) ++ r), z. split; [cbn [app]; rewrite <- !app_assoc; reflexivity |]. repeat split; auto; [discriminate |].
    rewrite forallb_app, R, andb_true_r. cbn [app]. apply LV; [exact B |]. rewrite forallb_app. apply andb_true_iff. split; [destruct H as [->| ->]; reflexivity |]. apply LV; [exact D |]. apply LC_; [reflexivity |]. apply LC_; [exact C' | reflexivity].
  - exists a, (([b] ++ x3 ++ [d; "n"%char; c]) ++ r), z. split; [cbn [app]; rewrite <- !app_assoc; reflexivity |]. repeat split; auto; [discriminate |].
    rewrite forallb_app, R, andb_true_r. cbn [app]. apply LV; [exact B |]. rewrite forallb_app. apply andb_true_iff. split; [destruct H as [->| ->]; reflexivity |]. apply LV; [exact D |]. apply LC_; [reflexivity |]. apply LC_; [exact C' | reflexivity].
  - apply bm3_ok in M. destruct M as [(a & v & b & c & r & z & -> & A & V & B & C & RN & Z) [_ W]]. exists a, (v :: b :: "y"%char :: c :: r), z. repeat split; auto; [discriminate |].
    change (a :: v :: b :: "y"%char :: c :: r ++ [z]) with ((a :: v :: b :: "y"%char :: c :: r) ++ [z]) in W. rewrite forallb_app in W. apply andb_true_iff in W. destruct W as [W _]. cbn [forallb] in W. apply andb_true_iff in W. apply W.
Qed.
Lemma first_other w : word w -> ~ cmavo_word w -> ~ ends_in cons w -> (forall c r z, w = c :: r ++ [z] -> cons c = true -> r <> [] -> vow z = true -> False) -> firstm initial_rules w (Gather Fell).
Proof.
  intros W NC NN NB. destruct rules_are as (l & ->). assert (B : ~ matches brivla_re w) by (intro M; apply brivla_ok in M; destruct M as (c & r & z & E & C & [R _] & Z); eauto).
  apply fm_next; [intro M; apply B, bm_is_brivla, M |]. apply fm_next; [rewrite cm_ok; assumption |]. apply fm_next; [exact B |]. apply fm_next; [rewrite name_ok; assumption |]. apply fm_here, m_plus_letters. exact W.
Qed.
