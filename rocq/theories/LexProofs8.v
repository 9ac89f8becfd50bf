From Coq Require Import String Ascii List NArith Bool Arith Lia.
From Verif Require Import Base TokData CmavoData TokModel LujvoSpec MorfModel MorfSpec LexModel LexSpec LexProofs LexProofs2 LexProofs5 LexProofs7.
Import ListNotations.
Open Scope N_scope.
Open Scope list_scope.

Lemma one_word_reads w : a_word w -> reads 1 1 (map Ch w) [Word w 1 1] /\ Forall proper (map Ch w).
Proof.
  intros [N W]. split.
  - rewrite <- (app_nil_r (map Ch w)). apply rd_word; auto; [discriminate|constructor].
  - rewrite Forall_map. eapply Forall_impl; [|exact W]. intros x (_ & _ & K). exact K.
Qed.
Lemma long_word cult w k st : a_word w -> 65536 <= N.of_nat (length w) -> (length w < k)%nat -> parse_file k cult w st = UB UB_bounds.
Proof.
  intros A L K. destruct (one_word_reads w A) as [R P]. rewrite <- (written_chars w) in K |- *. rewrite (parse_reads cult _ _ st k P R K). cbn [calls run fst snd].
  apply N.leb_le in L. now rewrite L.
Qed.
