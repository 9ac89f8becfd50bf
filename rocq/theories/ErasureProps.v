(* Property theorems C01-C04: erasure words. *)
From Coq Require Import String List NArith Bool Arith.
From Verif Require Import Base TokData CmavoData TokModel ErasureSpec ErasureProofs.
Import ListNotations.
Open Scope string_scope.

(* ---- example material ---- *)
Definition code_of (w : string) : N :=
  match find (fun c => String.eqb (snd (fst c)) w) cmavo_cells with
  | Some (i, _, _) => i | None => 0%N end.
Definition cm (w : string) : node :=
  match cmavo_selmao (code_of w) with
  | Some s => Node (N_CMAVO s (code_of w) false) 1 1 None false None []
  | None => Node (N_GARBAGE w) 1 1 None false None []
  end.
Definition bv (w : string) : node := Node (N_BRIVLA w BVT_GISMU) 1 1 None false None [].

(* proves a Forall over a literal list by evaluating each instance *)
Ltac each t := repeat (apply Forall_cons; [t|]); apply Forall_nil.

(* ---- C01 ---- *)
(* si processing is the one-word-at-a-time stack machine; the program stops exactly
   when the machine meets an item that is not worth any number of words *)
Theorem C01_si_spec : forall toks,
  handle_si toks = match si_spec toks with Some (stack, w) => Ok (rev stack, w) | None => Abort end.
Proof. exact handle_si_spec. Qed.
Print Assumptions C01_si_spec.

(* on the items that can occur in a text it always succeeds and leaves such items *)
Theorem C01_si_total : forall toks,
  Forall (fun x => units (dat x) <> None) toks ->
  exists r w, handle_si toks = Ok (r, w) /\ Forall (fun x => units (dat x) <> None) r.
Proof. exact handle_si_total. Qed.
Print Assumptions C01_si_total.

(* what follows the last si is untouched *)
Theorem C01_si_suffix : forall a b,
  Forall (fun x => ~ cmavo_of T_SI x) b ->
  handle_si (a ++ b)%list =
  match handle_si a with Ok (r, w) => Ok ((r ++ b)%list, w) | o => o end.
Proof. exact handle_si_suffix. Qed.
Print Assumptions C01_si_suffix.

Example C01_ex : (* si klama lo'u..le'u si barda si si : the quote keeps one unit *)
  handle_si [cm "si"; bv "klama"; set_dat (N_LOhU "coi") (cm "lo'u"); cm "si"; bv "barda"; cm "si"; cm "si"; cm "mi"] =
  Ok ([cm "si"; bv "klama"; set_dat (N_BROKEN_ERASURE 1) (cm "lo'u"); cm "mi"], [(1, 1)%N]).
Proof. vm_compute. reflexivity. Qed.
Example C01_ex_hyp : Forall (fun x => units (dat x) <> None)
  [cm "si"; bv "klama"; set_dat (N_LOhU "coi") (cm "lo'u"); cm "si"].
Proof. each ltac:(vm_compute; discriminate). Qed.

(* ---- C02 ---- *)
Theorem C02_sa_law : sa_law handle_sa.
Proof. exact handle_sa_law. Qed.
Print Assumptions C02_sa_law.

Theorem C02_sa_law_determines : forall f g, sa_law f -> sa_law g -> forall l, f l = g l.
Proof. exact sa_law_unique. Qed.
Print Assumptions C02_sa_law_determines.

Example C02_ex : (* le zarci le zdani sa le gerku *)
  handle_sa [cm "mi"; cm "le"; bv "zarci"; cm "lo"; bv "zdani"; bv "barda"; cm "sa"; cm "lo"; bv "gerku"; cm "sa"] =
  [cm "mi"; cm "le"; bv "zarci"; cm "lo"; bv "gerku"; cm "sa"].
Proof. vm_compute. reflexivity. Qed.

(* ---- C03 ---- *)
Theorem C03_su_law : su_law handle_su.
Proof. exact handle_su_law. Qed.
Print Assumptions C03_su_law.

Theorem C03_su_law_determines : forall f g, su_law f -> su_law g -> forall l, f l = g l.
Proof. exact su_law_unique. Qed.
Print Assumptions C03_su_law_determines.

Example C03_ex :
  handle_su [cm "mi"; cm "ni'o"; bv "zarci"; cm "su"; cm "do"; cm "to"; bv "gerku"; cm "su"; cm "ti"] =
  [cm "mi"; cm "do"; cm "ti"].
Proof. vm_compute. reflexivity. Qed.
Example C03_ex_double :
  handle_su [cm "mi"; cm "ni'o"; bv "zarci"; cm "su"; cm "su"; cm "do"] = [cm "do"].
Proof. vm_compute. reflexivity. Qed.

(* ---- C04 ---- *)
Theorem C04_no_erasure : forall toks,
  Forall (fun x => ~ cmavo_of T_SI x /\ ~ cmavo_of T_SA x /\ ~ cmavo_of T_SU x) toks ->
  do_erasures toks = Ok (toks, []).
Proof. exact do_erasures_none. Qed.
Print Assumptions C04_no_erasure.

Example C04_ex :
  let t := [cm "mi"; bv "klama"; cm "le"; bv "zarci"] in
  Forall (fun x => ~ cmavo_of T_SI x /\ ~ cmavo_of T_SA x /\ ~ cmavo_of T_SU x) t /\
  do_erasures t = Ok (t, []).
Proof.
  cbv zeta. split; [|vm_compute; reflexivity].
  each ltac:(repeat split; intros (c & f & H); vm_compute in H; discriminate H).
Qed.
