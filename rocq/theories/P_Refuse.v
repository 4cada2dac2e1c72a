(** Bundles with a bad signature (C30). *)
From Verif Require Import M_Base M_Crypto M_Aes M_Curve M_Message M_Ratchet M_State M_Store M_Session M_Group
  S_Crypto S_Message S_Shape S_Session S_Api S_Send S_Curve S_Bundle P_Base P_Curve P_CryptoTop P_Bundle.
Local Open Scope nat_scope.

Lemma unsigned_refused : forall C a rnd b fs w, CryptoOk C -> ~ bundle_signed C b ->
  let p := process_bundle C a rnd b in
  snd (run p fs w) = w /\ (forall n, crash n p fs w = w) /\ fst (run p fs w) <> Ok tt.
Proof.
  intros C a rnd b fs w H N p. apply bundle_refused. intros (ti & ts & E1 & E2 & _ & V). apply N.
  destruct (signatures C H) as (_ & Vs & _). apply Vs in V. destruct V as (r & t & y & Q1 & Q2 & Q3 & Q4).
  cbn [List.concat] in Q4. rewrite app_nil_r in Q4. exists ti, ts, r, t, y. auto 10.
Qed.
Lemma two_reasons : forall C a rnd b fs w, CryptoOk C ->
  snd (run (process_bundle C a rnd b) fs w) <> w \/ fst (run (process_bundle C a rnd b) fs w) = Ok tt ->
  bundle_signed C b /\ bundle_trusted w a b.
Proof.
  intros C a rnd b fs w H Q.
  assert (X : exists ti ts, bd_identity b = Some ti /\ bd_signed b = Some ts /\ w_policy w a (w_ident w a) ti Sending = true /\
      verify_signature C ti (bd_signature b) [pub_bytes ts] = Ok true).
  { destruct (bd_identity b) as [ti|] eqn:E1; [|destruct (bundle_refused C a rnd b fs w) as (A & _ & B); [intros (? & ? & X & _); congruence|tauto]].
    destruct (bd_signed b) as [ts|] eqn:E2; [|destruct (bundle_refused C a rnd b fs w) as (A & _ & B); [intros (? & ? & _ & X & _); congruence|tauto]].
    exists ti, ts. split; [reflexivity|]. split; [reflexivity|].
    destruct (w_policy w a (w_ident w a) ti Sending) eqn:T; [|destruct (bundle_refused C a rnd b fs w) as (A & _ & B); [intros (? & ? & X & _ & Y & _); congruence|tauto]].
    split; [reflexivity|]. destruct (verify_signature C ti (bd_signature b) [pub_bytes ts]) as [[]|e|] eqn:V; [reflexivity|..];
      (destruct (bundle_refused C a rnd b fs w) as (A & _ & B); [intros (? & ? & X & X' & _ & Y); congruence|tauto]). }
  destruct X as (ti & ts & E1 & E2 & T & V). split; [|exists ti; auto].
  destruct (signatures C H) as (_ & Vs & _). apply Vs in V. destruct V as (r & t & y & Q1 & Q2 & Q3 & Q4).
  cbn [List.concat] in Q4. rewrite app_nil_r in Q4. exists ti, ts, r, t, y. auto 10.
Qed.
