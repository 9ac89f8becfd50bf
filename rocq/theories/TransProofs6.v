From Coq Require Import String Ascii List NArith ZArith Bool Arith Lia.
From Verif Require Import Base DictModel TransModel TransSpec TransProofs TransProofs2 TransProofs3 TransProofs4 TransProofs5.
From Verif Require LujvoSpec LujvoModel LujvoProofs2 LujvoProofs3 LujvoProofs9 LujvoData.
Import ListNotations.
Open Scope string_scope.
Open Scope list_scope.

Lemma plural_exact : exists rule, plural_rule rule /\ forall x y, make_plural x = Ok y <-> ending rule no_glue x y.
Proof. exists plural_word. split; [apply plural_ok |]. intros x y. apply starred_iff. Qed.
Lemma er_exact : exists rule glue, er_rule rule /\ of_glue glue /\ forall x y, append_er x = Ok y <-> ending rule glue x y.
Proof. exists er_word, (fun p => if starts_with_preposition p then "" else " of"). split; [apply er_ok |]. split; [apply of_glue_ok |]. intros x y. apply starred_iff. Qed.
Lemma ing_exact : exists rule, ing_rule rule /\ forall x y, append_ing x = Ok y <-> ending rule no_glue x y.
Proof. exists ing_word. split; [apply ing_ok |]. intros x y. apply starred_iff. Qed.
Lemma ending_unique : forall rule glue x, exists! y, ending rule glue x y.
Proof.
  intros rule glue x. destruct (starred_ok rule glue (S (String.length x)) x) as (y & _ & E); [lia |].
  exists y. split; [exact E |]. intros z Z. eapply ending_fun; eauto.
Qed.

Lemma found_gloss dict canon kind n s s' class x : hops dict n s s' ->
  entry_for dict s' = Some (String class (String ";" x)) -> star_ok (table class (snd (asked s'))) x -> table class (snd (asked s')) <> None -> class <> "@"%char ->
  exists before form after y, table class (snd (asked s')) = Some (before, form, after) /\ inflect form x y /\
    forall f, run dict canon kind (n + S f) s =
      Ok (before ++ (match dict (fst (fst (asked s')) ++ zdec (snd (fst (asked s'))) ++ "n")%string with
                     | Some noun => if uses_noun class (snd (asked s')) && negb (String.eqb noun "") then noun else y
                     | None => y end) ++ after)%string.
Proof.
  intros H E S T C. destruct (table class (snd (asked s'))) as [((b & fm) & a)|] eqn:TB; [| congruence].
  set (o := dict (fst (fst (asked s')) ++ zdec (snd (fst (asked s'))) ++ "n")%string).
  pose proof (table_ok class x (snd (asked s')) (match o with Some n => n | None => "" end)) as K. rewrite TB in K. specialize (K S).
  destruct K as (y & I & K). exists b, fm, a, y. split; [reflexivity |]. split; [exact I |]. intro f.
  rewrite (hops_run _ _ _ _ _ _ H), (run_entry _ _ _ _ _ _ E). unfold by_entry.
  assert (Q : (do r <- fix_trans_in_context (String class (String ";" x)) (snd (asked s'))
                 (match o with Some n => n | None => "" end);
               match r with Some r => Ok r | None => UB UB_null end) =
          Ok (b ++ match o with Some noun => if uses_noun class (snd (asked s')) && negb (String.eqb noun "") then noun else y | None => y end ++ a)%string).
  { rewrite K. cbn [obind]. destruct o as [noun|]; [reflexivity |]. cbn [String.eqb negb andb]. rewrite andb_false_r. reflexivity. }
  destruct class as [[] [] [] [] [] [] [] []]; try exact Q. destruct C. reflexivity.
Qed.
Lemma ends_xor_loops : forall dict keys, (forall k v, dict k = Some v -> In k keys) -> forall s,
  ((exists n s', n <= 2 * List.length keys /\ hops dict n s s' /\ forall t, ~ hop dict s' t) \/ cyclic dict s) /\
  ~ ((exists n s', hops dict n s s' /\ forall t, ~ hop dict s' t) /\ cyclic dict s).
Proof.
  intros dict keys F s. split; [apply ends_or_loops; exact F |]. intros ((n & s' & H & E) & C). exact (end_not_cyclic _ _ _ _ H E C).
Qed.

Lemma plusses_filter c : List.length (filter (Ascii.eqb "+") (list_ascii_of_string c)) = plusses c.
Proof.
  induction c as [|d c IH]; [reflexivity |]. cbn [list_ascii_of_string filter plusses]. rewrite (Ascii.eqb_sym d "+").
  destruct (Ascii.eqb "+" d); cbn [List.length]; rewrite IH; reflexivity.
Qed.
Lemma gloss_ends dict cult : (forall k r, dict k = Some ("@" ++ r)%string -> letter_in "*" k) ->
  forall w place ctx f, starless w -> parts_of w + 1 <= f -> gloss dict cult f w place ctx <> NoFuel.
Proof.
  intros NR w place ctx f S L. apply (adv_ends dict cult NR). split; [exact S |]. left. unfold lvl, parts_of in *.
  destruct (canon w) as [[c|]| | | |]; [rewrite plusses_filter in L | | | | |]; lia.
Qed.

(* the circle through a compound *)
Definition one_entry (k : string) : option string := if String.eqb k "brodu1" then Some "@selbrodu2" else None.
Lemma one_hop s s' : hop one_entry s s' -> fst s' = ("selbrodu", 2%Z).
Proof.
  intro H. apply hop_next in H. unfold next in H. destruct (entry_for one_entry s) as [t|] eqn:E; [| discriminate].
  assert (t = "@selbrodu2") as ->.
  { unfold entry_for, one_entry in E. destruct (asked s) as ((w & p) & c).
    destruct (String.eqb _ _) in E; [congruence |]. destruct (String.eqb _ _) in E; congruence. }
  vm_compute in H. injection H as <-. reflexivity.
Qed.
Lemma no_hop s : fst s = ("selbrodu", 2%Z) -> forall t, ~ hop one_entry s t.
Proof. destruct s as (wp & c). cbn [fst]. intros -> t H. apply hop_next in H. destruct c; vm_compute in H; discriminate H. Qed.
Lemma compound_circle : exists dict w, (forall s, ~ cyclic dict s) /\ forall f, gloss dict false f w 1 TCX_NOUN = NoFuel.
Proof.
  exists one_entry, "brodu". split.
  - intros s (n & m & s' & _ & C). inversion C as [|? ? t ? H R]; subst. inversion R as [|? ? u ? H' R']; subst.
    + apply (no_hop s' (one_hop _ _ H) s'). exact H.
    + exact (no_hop t (one_hop _ _ H) u H').
  - intro f. induction f as [f IH] using lt_wf_ind. destruct f as [|[|f]]; [reflexivity | reflexivity |].
    assert (gloss one_entry false (S (S f)) "brodu" 1 TCX_NOUN = gloss one_entry false f "brodu" 1 TCX_NOUN) as ->; [| apply IH; lia].
    unfold gloss. transitivity (adv_translate one_entry canon (kind false) (S f) "selbrodu" 2 TCX_NOUN); [reflexivity |].
    rewrite no_entry; [| lia | reflexivity | reflexivity].
    unfold attempt_pattern_match. replace (canon "selbrodu") with (@Ok (option string) (Some "se+brodu")) by (vm_compute; reflexivity).
    cbn [obind]. replace (has "+" "se+brodu") with true by reflexivity.
    replace (split_into_comps "se+brodu") with (Ok [Comp 0 2 "brodu" [2; 1; 3; 4; 5]%Z]) by reflexivity. cbn [obind text].
    replace (place_at (Comp 0 2 "brodu" [2; 1; 3; 4; 5]%Z) 2) with (@Ok Z 1%Z) by reflexivity. cbn [obind].
    destruct (adv_translate one_entry canon (kind false) f "brodu" 1 TCX_NOUN); reflexivity.
Qed.

(* conversions *)
Lemma converted_two c c' k k' place : conv_number c = Some k -> conv_number c' = Some k' -> converted [c; c'] place = swap k' (swap k place).
Proof. intros E F. cbn [converted]. rewrite E, F. reflexivity. Qed.
Lemma table_filled : forallb (fun e => negb (String.eqb (snd e) "")) LujvoData.r2g = true.
Proof. vm_compute. reflexivity. Qed.
Lemma part_plain k p t : LujvoSpec.form k p -> LujvoSpec.stands_for p t -> plusless t /\ t <> "" /\ String.length t <= 5.
Proof.
  intros F [(L & ->)|(_ & s & I & _)].
  - unfold LujvoSpec.text in *. rewrite slen in L. split; [| split; [intros ->; discriminate L | lia]].
    intro H. unfold letter_in in H. apply LujvoProofs3.form_smalls in F. unfold LujvoProofs2.smalls in F. rewrite Forall_forall in F.
    specialize (F _ H). discriminate F.
  - pose proof table_plain as T. rewrite forallb_forall in T. specialize (T _ I). cbn [snd] in T.
    pose proof table_filled as T2. rewrite forallb_forall in T2. specialize (T2 _ I). cbn [snd] in T2.
    destruct (has "+" t) eqn:H; [discriminate |]. destruct (has "*" t); [discriminate |]. apply Nat.leb_le in T. apply has_not in H.
    split; [exact H |]. split; [| exact T]. intros ->. discriminate T2.
Qed.
Lemma parts_last l : LujvoSpec.parts l -> exists l' k p, l = l' ++ [(k, p)] /\ LujvoSpec.form k p.
Proof.
  induction 1 as [k p _ F|k p l _ _ _ (l' & k' & p' & -> & F)].
  - exists [], k, p. auto.
  - exists ((k, p) :: l'), k', p'. auto.
Qed.
Lemma converted_lujvo : forall dict cult l w cs t place ctx f,
  LujvoSpec.parts l -> LujvoSpec.lujvo l (list_ascii_of_string w) -> Forall2 LujvoSpec.stands_for (map snd l) (cs ++ [t]) ->
  Forall (fun c => conv_number c <> None) cs -> cs <> [] -> conv_number t = None -> (1 <= place <= 5)%Z ->
  entry_for dict (w, place, ctx) = None -> dict w = None ->
  gloss dict cult (S f) w place ctx = gloss dict cult f t (converted cs place) ctx.
Proof.
  intros dict cult l w cs t place ctx f P J S C N T PL E D. apply (converted_gloss dict canon (kind cult)); try assumption.
  - unfold canon. rewrite (LujvoProofs9.canon_spec l _ _ P J S). unfold spelled. cbn [flat_map fst snd]. rewrite app_nil_r. reflexivity.
  - destruct (parts_last l P) as (l' & k & p & -> & F). rewrite map_app in S. apply Forall2_app_inv_l in S.
    destruct S as (a & b & _ & S & EQ). inversion S as [|? g ? ? ST S']; subst. inversion S'; subst. apply app_inj_tail in EQ. destruct EQ as (_ & ->).
    destruct (part_plain _ _ _ F ST) as (A1 & A2 & A3). split; [exact C |]. auto.
Qed.
Lemma in_table s g : existsb (fun e => String.eqb (fst e) s && String.eqb (snd e) g) LujvoData.r2g = true -> In (s, g) LujvoData.r2g.
Proof.
  intro H. apply existsb_exists in H. destruct H as ((a & b) & I & E). cbn [fst snd] in E. apply andb_true_iff in E. destruct E as (A & B).
  apply String.eqb_eq in A, B. subst. exact I.
Qed.
Lemma selkla : exists l, LujvoSpec.parts l /\ LujvoSpec.lujvo l (list_ascii_of_string "selkla") /\
  Forall2 LujvoSpec.stands_for (map snd l) (["se"] ++ ["klama"]).
Proof.
  exists [(LujvoSpec.CVC, list_ascii_of_string "sel"); (LujvoSpec.CCV, list_ascii_of_string "kla")]. split; [| split].
  - apply LujvoSpec.ps_more; [reflexivity | apply LujvoSpec.f_cvc; reflexivity |]. apply LujvoSpec.ps_last; [reflexivity |]. apply LujvoSpec.f_ccv; reflexivity.
  - change (list_ascii_of_string "selkla") with (list_ascii_of_string "sel" ++ LujvoSpec.joined [(LujvoSpec.CCV, list_ascii_of_string "kla")]).
    apply LujvoSpec.l_cvc; [reflexivity |]. intros (k & p & l & K & N & P & E).
    destruct l as [|y l]; [congruence |]. assert (LujvoSpec.form k p) as F by (inversion P; assumption).
    cbn [LujvoSpec.joined snd] in E. destruct K as [->| ->]; inversion F; subst; cbn [app] in E; injection E as <- <- _; discriminate.
  - constructor; [| constructor; [| constructor]]; right; (split; [discriminate |]).
    + exists "sel". split; [apply in_table; vm_compute; reflexivity | reflexivity].
    + exists "kla". split; [apply in_table; vm_compute; reflexivity | reflexivity].
Qed.
