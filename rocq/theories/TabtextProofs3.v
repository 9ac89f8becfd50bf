(* The tables of results, and the names used by the emitted functions. *)
From Coq Require Import Ascii String List Bool Arith NArith ZArith Lia.
From Verif Require Import TransModel TabtextModel TabtextSpec TabtextProofs.
Import ListNotations.
Open Scope string_scope.
Open Scope list_scope.

Lemma fields_plain c cur s : plain c = true -> fields false cur (String c s) = fields false (cur ++ String c "") s.
Proof.
  unfold plain. intro H. apply andb_true_iff in H. destruct H as [H C]. apply andb_true_iff in H. destruct H as [B S].
  apply negb_true_iff in B, S, C. cbn [fields]. rewrite B, S, C. destruct s; reflexivity.
Qed.
Lemma fields_word w : forall cur s, plain_word w = true -> fields false cur (w ++ s) = fields false (cur ++ w) s.
Proof.
  induction w as [|c w IH]; intros cur s H; [rewrite app_nil_s; reflexivity|].
  cbn [plain_word] in H. apply andb_true_iff in H. destruct H as [H1 H2]. cbn [append].
  rewrite fields_plain, IH, app_assoc_s by assumption. reflexivity.
Qed.
Lemma fields_space cur s : fields false cur (String " " s) = fields false cur s.
Proof. destruct s; reflexivity. Qed.
Lemma fields_nl cur s : fields false cur (nl ++ s) = fields false cur s.
Proof. destruct s; reflexivity. Qed.
Lemma fields_comma cur s : fields false cur (String "," s) = cur :: fields false "" s.
Proof. destruct s; reflexivity. Qed.
Fixpoint no_star (s : string) : bool := match s with "" => true | String c s => negb (Ascii.eqb c "*") && no_star s end.
Lemma fields_remark b : forall cur s, no_star b = true -> fields true cur (b ++ "*/" ++ s) = fields false cur s.
Proof.
  induction b as [|c b IH]; intros cur s H; [reflexivity|].
  cbn [no_star] in H. apply andb_true_iff in H. destruct H as [H1 H2]. apply negb_true_iff in H1.
  rewrite <- (IH cur s H2). cbn [append fields]. rewrite H1. destruct b; reflexivity.
Qed.

Lemma digit_char n : exists c, ascii_of_N (48 + N.modulo n 10) = c /\ Ascii.eqb c "*" = false /\ word_letter c = true /\ digit c <> None.
Proof.
  exists (dig n). split; [reflexivity|]. pose proof (digit_dig n) as D. split; [|split].
  - apply Ascii.eqb_neq. intro E. rewrite E in D. discriminate.
  - unfold digit in D. unfold word_letter. destruct ((48 <=? N_of_ascii (dig n))%N && (N_of_ascii (dig n) <=? 57)%N); [reflexivity|discriminate].
  - congruence.
Qed.
Lemma digits_no_star f : forall n acc, no_star acc = true -> no_star (digits f n acc) = true.
Proof.
  induction f as [|f IH]; intros n acc H; [exact H|]. cbn [digits].
  destruct (digit_char n) as (c & -> & S & _). assert (K : no_star (String c acc) = true) by (cbn [no_star]; rewrite S, H; reflexivity).
  destruct (n / 10 =? 0)%N; [exact K|apply IH, K].
Qed.
Lemma zdec_no_star n : no_star (zdec (Z.of_nat n)) = true.
Proof. destruct n as [|n]; [reflexivity|]. cbn [Z.of_nat zdec]. apply digits_no_star. reflexivity. Qed.

Lemma fields_end cur i s : fields false cur (" /* State " ++ zdec (Z.of_nat i) ++ " */" ++ nl ++ s) = fields false cur s.
Proof.
  change (fields true cur (" State " ++ zdec (Z.of_nat i) ++ " */" ++ nl ++ s) = fields false cur s).
  replace (" State " ++ zdec (Z.of_nat i) ++ " */" ++ nl ++ s)%string with ((" State " ++ zdec (Z.of_nat i) ++ " ") ++ "*/" ++ nl ++ s)%string
    by (rewrite !app_assoc_s; reflexivity).
  rewrite fields_remark; [apply fields_nl|].
  assert (A : forall a b, no_star a = true -> no_star b = true -> no_star (a ++ b) = true).
  { induction a as [|c a IH]; intros b Ha Hb; [exact Hb|]. cbn [no_star append] in *. apply andb_true_iff in Ha. destruct Ha as [-> Ha]. apply IH; assumption. }
  apply A; [reflexivity|]. apply A; [apply zdec_no_star|reflexivity].
Qed.
Lemma result_fields l : forall s i n, n = (i + S (List.length l))%nat -> Forall (fun w => plain_word w = true) (s :: l) ->
  fields false "" (result_lines i n (s :: l)) = s :: l.
Proof.
  induction l as [|t l IH]; intros s i n E F; inversion F as [|x y P Q E1]; subst x y.
  - cbn [result_lines List.length] in *. destruct (Nat.ltb_spec i (n - 1)); [lia|].
    rewrite fields_word by exact P. cbn [append]. rewrite fields_space. rewrite (fields_end _ i ""). reflexivity.
  - change (result_lines i n (s :: t :: l)) with (s ++ (if (i <? n - 1)%nat then "," else " ") ++ " /* State " ++ zdec (Z.of_nat i) ++ " */" ++ nl ++ result_lines (S i) n (t :: l))%string.
    cbn [List.length] in E. destruct (Nat.ltb_spec i (n - 1)); [|lia].
    rewrite fields_word by exact P. rewrite <- (IH t (S i) n ltac:(cbn [List.length]; lia) Q) at 2.
    change ("" ++ s)%string with s. change ("," ++ ?x)%string with (String "," x).
    rewrite <- (fields_end "" i (result_lines (S i) n (t :: l))). apply fields_comma.
Qed.
Lemma result_text ty p name l : l <> [] -> Forall (fun w => plain_word w = true) l ->
  exists body, print_result_table ty p name l = (ty ++ " " ++ table_name p name ++ "[] = {" ++ body ++ "};" ++ newline ++ newline)%string /\ fields false "" body = l.
Proof.
  intros H F. destruct l as [|s l]; [now elim H|]. exists (nl ++ result_lines 0 (List.length (s :: l)) (s :: l))%string. split.
  - unfold print_result_table. rewrite !app_assoc_s. reflexivity.
  - rewrite fields_nl. apply result_fields; [reflexivity|exact F].
Qed.

(* ---- names ---- *)
Lemma words_letters w : forall cur s, all_letters w = true -> words cur (w ++ s) = words (cur ++ w) s.
Proof.
  induction w as [|c w IH]; intros cur s H; [rewrite app_nil_s; reflexivity|].
  cbn [all_letters] in H. apply andb_true_iff in H. destruct H as [H1 H2]. cbn [append words]. rewrite H1, IH, app_assoc_s by assumption. reflexivity.
Qed.
Lemma words_name p q c r : all_letters p = true -> all_letters q = true -> q <> "" -> word_letter c = false ->
  words "" (p ++ q ++ String c r) = (p ++ q)%string :: words "" r.
Proof.
  intros P Q N C. rewrite words_letters, words_letters by assumption. cbn [append words]. rewrite C.
  destruct (String.eqb_spec (p ++ q) "") as [E|E]; [|reflexivity]. destruct p, q; try discriminate; now elim N.
Qed.
Fixpoint no_paren (s : string) : bool := match s with "" => true | String c s => negb (Ascii.eqb c ")") && no_paren s end.
Lemma header_at a r : no_paren a = true -> header (a ++ String ")" r) = (a, r).
Proof.
  induction a as [|c a IH]; intro H; [reflexivity|]. cbn [no_paren] in H. apply andb_true_iff in H. destruct H as [H1 H2].
  apply negb_true_iff in H1. cbn [append header]. rewrite H1, IH by exact H2. reflexivity.
Qed.
Lemma letters_paren p : all_letters p = true -> no_paren p = true.
Proof.
  induction p as [|c p IH]; intro H; [reflexivity|]. cbn [all_letters] in H. apply andb_true_iff in H. destruct H as [H1 H2].
  cbn [no_paren]. rewrite IH by exact H2. rewrite andb_true_r. apply negb_true_iff, Ascii.eqb_neq. intros ->. discriminate.
Qed.
Lemma no_paren_app a b : no_paren a = true -> no_paren b = true -> no_paren (a ++ b) = true.
Proof.
  induction a as [|c a IH]; intros A B; [exact B|]. cbn [no_paren append] in *. apply andb_true_iff in A. destruct A as [-> A]. apply IH; assumption.
Qed.
Definition params (p : string) : string := ("int " ++ p ++ "_next_state(int current_state, int next_token")%string.
Lemma params_words p : all_letters p = true -> words "" (params p) = ["int"; p ++ "_next_state"; "int"; "current_state"; "int"; "next_token"]%string.
Proof.
  intro P. unfold params.
  change (words "" ("int " ++ p ++ "_next_state(int current_state, int next_token"))
    with ("int" :: words "" (p ++ "_next_state" ++ String "(" "int current_state, int next_token")).
  rewrite words_name by (assumption || reflexivity || discriminate). reflexivity.
Qed.
Lemma params_header p r : all_letters p = true -> header (params p ++ String ")" r) = (params p, r).
Proof.
  intro P. apply header_at. unfold params. apply no_paren_app; [reflexivity|]. apply no_paren_app; [apply letters_paren, P|reflexivity].
Qed.

Lemma digits_letters f : forall n acc, all_letters acc = true -> all_letters (digits f n acc) = true.
Proof.
  induction f as [|f IH]; intros n acc H; [exact H|]. cbn [digits].
  destruct (digit_char n) as (c & -> & _ & L & _). assert (K : all_letters (String c acc) = true) by (cbn [all_letters]; rewrite L, H; reflexivity).
  destruct (n / 10 =? 0)%N; [exact K|apply IH, K].
Qed.
Lemma digits_numeral f : forall n acc, numeral acc = true \/ f <> O -> numeral (digits f n acc) = true.
Proof.
  induction f as [|f IH]; intros n acc H; [destruct H as [H|H]; [exact H|now elim H]|]. cbn [digits].
  destruct (digit_char n) as (c & -> & _ & _ & D). assert (K : numeral (String c acc) = true) by (cbn [numeral]; destruct (digit c); [reflexivity|now elim D]).
  destruct (n / 10 =? 0)%N; [exact K|apply IH; left; exact K].
Qed.
Lemma count_word n : all_letters (zdec (Z.of_nat n)) = true /\ numeral (zdec (Z.of_nat n)) = true.
Proof.
  destruct n as [|n]; [split; reflexivity|]. cbn [Z.of_nat zdec]. split; [apply digits_letters; reflexivity|apply digits_numeral; right; discriminate].
Qed.

Lemma closed_uncompressed p nt : all_letters p = true -> closed_function [p ++ "_trans"]%string (next_state_uncompressed (Some p) nt).
Proof.
  intro P. destruct (count_word nt) as [K1 K2]. unfold closed_function, next_state_uncompressed. set (k := zdec (Z.of_nat nt)) in *. clearbody k.
  cbv zeta.
  set (t2 := ("*current_state + next_token];" ++ nl ++ "}" ++ nl)%string).
  set (t1 := (") return -1;" ++ nl ++ "  return " ++ p ++ "_trans[" ++ k ++ t2)%string).
  set (b := (" {" ++ nl ++ "  if (next_token < 0 || next_token >= " ++ k ++ t1)%string).
  match goal with |- context [header ?s] => replace s with (params p ++ String ")" b)%string
    by (subst b t1 t2; unfold params; rewrite !app_assoc_s; reflexivity) end.
  rewrite params_header by exact P. cbn [fst snd]. rewrite params_words by exact P.
  assert (N : k <> "") by (intros ->; discriminate).
  assert (E2 : words "" (k ++ t2) = k :: ["current_state"; "next_token"]) by (apply (words_name "" k "*"); [reflexivity|exact K1|exact N|reflexivity]).
  assert (E1 : words "" (k ++ t1) = k :: ["return"; "1"; "return"; p ++ "_trans"; k; "current_state"; "next_token"]%string).
  { change (words "" (k ++ t1)) with (words "" ("" ++ k ++ String ")" (" return -1;" ++ nl ++ "  return " ++ p ++ "_trans[" ++ k ++ t2))).
    rewrite words_name by (assumption || reflexivity). cbn [append]. f_equal.
    change ("return" :: "1" :: "return" :: words "" (p ++ "_trans" ++ String "[" (k ++ t2)) = ["return"; "1"; "return"; p ++ "_trans"; k; "current_state"; "next_token"]%string).
    rewrite words_name by (assumption || reflexivity || discriminate). rewrite E2. reflexivity. }
  change (words "" b) with ("if" :: "next_token" :: "0" :: "next_token" :: words "" (k ++ t1)). rewrite E1.
  unfold known. cbn [app]. repeat (apply Forall_cons; [first [left; (reflexivity || exact K2)|right; cbn [In]; tauto]|]). apply Forall_nil.
Qed.
Lemma closed_compressed p : all_letters p = true ->
  closed_function [p ++ "_token"; p ++ "_nextstate"; p ++ "_base"; p ++ "_defstate"]%string (next_state_compressed (Some p)).
Proof.
  intro P. unfold closed_function, next_state_compressed.
  set (t5 := ("m];" ++ nl ++ "}" ++ nl)%string).
  set (t4 := ("current_state];" ++ nl ++ "}" ++ nl ++ "return -1;" ++ nl ++ "done:" ++ nl ++ "return " ++ p ++ "_nextstate" ++ String "[" t5)%string).
  set (t3 := ("m];" ++ nl ++ "    if (xm == next_token) goto done;" ++ nl ++ "    if (m == l) break;" ++ nl ++
      "    if (xm > next_token) h = m;" ++ nl ++ "    else                 l = m;" ++ nl ++ "  }" ++ nl ++
      "  current_state = " ++ p ++ "_defstate" ++ String "[" t4)%string).
  set (t2 := ("current_state+1];" ++ nl ++ "  while (h > l) {" ++ nl ++ "    m = (h + l) >> 1; xm = " ++ p ++ "_token" ++ String "[" t3)%string).
  set (t1 := ("current_state], h = " ++ p ++ "_base" ++ String "[" t2)%string).
  set (b := (" {" ++ nl ++ "int h, l, m, xm;" ++ nl ++ "while (current_state >= 0) {" ++ nl ++ "  l = " ++ p ++ "_base" ++ String "[" t1)%string).
  match goal with |- context [header ?s] => replace s with (params p ++ String ")" b)%string
    by (subst b t1 t2 t3 t4 t5; unfold params; rewrite !app_assoc_s; reflexivity) end.
  rewrite params_header by exact P. cbn [fst snd]. rewrite params_words by exact P.
  assert (E5 : words "" t5 = ["m"]) by reflexivity.
  assert (E4 : words "" t4 = ["current_state"; "return"; "1"; "done"; "return"; p ++ "_nextstate"; "m"]%string).
  { change (words "" t4) with ("current_state" :: "return" :: "1" :: "done" :: "return" :: words "" (p ++ "_nextstate" ++ String "[" t5)).
    rewrite words_name, E5 by (assumption || reflexivity || discriminate). reflexivity. }
  assert (E3 : words "" t3 = ["m"; "if"; "xm"; "next_token"; "goto"; "done"; "if"; "m"; "l"; "break"; "if"; "xm"; "next_token"; "h"; "m"; "else"; "l"; "m"; "current_state"; p ++ "_defstate"]%string ++ words "" t4).
  { change (words "" t3) with (["m"; "if"; "xm"; "next_token"; "goto"; "done"; "if"; "m"; "l"; "break"; "if"; "xm"; "next_token"; "h"; "m"; "else"; "l"; "m"; "current_state"] ++ words "" (p ++ "_defstate" ++ String "[" t4)).
    rewrite words_name by (assumption || reflexivity || discriminate). cbn [app]. reflexivity. }
  assert (E2 : words "" t2 = ["current_state"; "1"; "while"; "h"; "l"; "m"; "h"; "l"; "1"; "xm"; p ++ "_token"]%string ++ words "" t3).
  { change (words "" t2) with (["current_state"; "1"; "while"; "h"; "l"; "m"; "h"; "l"; "1"; "xm"] ++ words "" (p ++ "_token" ++ String "[" t3)).
    rewrite words_name by (assumption || reflexivity || discriminate). cbn [app]. reflexivity. }
  assert (E1 : words "" t1 = ["current_state"; "h"; p ++ "_base"]%string ++ words "" t2).
  { change (words "" t1) with (["current_state"; "h"] ++ words "" (p ++ "_base" ++ String "[" t2)).
    rewrite words_name by (assumption || reflexivity || discriminate). cbn [app]. reflexivity. }
  assert (E0 : words "" b = ["int"; "h"; "l"; "m"; "xm"; "while"; "current_state"; "0"; "l"; p ++ "_base"]%string ++ words "" t1).
  { change (words "" b) with (["int"; "h"; "l"; "m"; "xm"; "while"; "current_state"; "0"; "l"] ++ words "" (p ++ "_base" ++ String "[" t1)).
    rewrite words_name by (assumption || reflexivity || discriminate). cbn [app]. reflexivity. }
  rewrite E0, E1, E2, E3, E4. clear. unfold known. cbn [app].
  repeat (apply Forall_cons; [first [left; reflexivity|right; cbn [In]; tauto]|]). apply Forall_nil.
Qed.
Lemma open_name w tables f : existsb (String.eqb w) (words "" (snd (header f))) = true -> numeral w = false ->
  existsb (String.eqb w) (known ++ words "" (fst (header f)) ++ tables) = false -> ~ closed_function tables f.
Proof.
  intros U M K F. unfold closed_function in F. rewrite Forall_forall in F.
  apply existsb_exists in U. destruct U as (x & X & E). apply String.eqb_eq in E. subst x.
  destruct (F w X) as [H|H]; [congruence|].
  assert (T : existsb (String.eqb w) (known ++ words "" (fst (header f)) ++ tables) = true).
  { apply existsb_exists. exists w. split; [exact H|apply String.eqb_refl]. }
  congruence.
Qed.
Lemma open_compressed : ~ closed_function ["token"; "nextstate"; "base"; "defstate"] (next_state_compressed None).
Proof. apply (open_name "next_token"); vm_compute; reflexivity. Qed.
Lemma open_any t : ~ closed_function ["trans"] ("int next_state(int current_state, int token) {" ++ nl ++ "  if (next_token " ++ t).
Proof. apply (open_name "next_token"); vm_compute; reflexivity. Qed.
Lemma shape_uncompressed nt : exists t, next_state_uncompressed None nt = ("int next_state(int current_state, int token) {" ++ nl ++ "  if (next_token " ++ t)%string.
Proof.
  unfold next_state_uncompressed. cbv zeta. generalize (zdec (Z.of_nat nt)). intro k.
  exists ("< 0 || next_token >= " ++ k ++ ") return -1;" ++ nl ++ "  return trans[" ++ k ++ "*current_state + next_token];" ++ nl ++ "}" ++ nl)%string. reflexivity.
Qed.
Lemma open_uncompressed nt : ~ closed_function ["trans"] (next_state_uncompressed None nt).
Proof. destruct (shape_uncompressed nt) as [t E]. rewrite E. apply open_any. Qed.
