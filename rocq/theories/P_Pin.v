(** Trust on first use (C57). *)
From Verif Require Import M_Base M_Crypto M_Aes M_Curve M_Uuid M_Proto M_Message M_Ratchet M_State M_Store M_Session M_Group
  S_Crypto S_Message S_State S_Shape S_Ratchet S_Session S_Aes S_Api S_Pin S_Isolation
  P_Base P_Prog P_Bundle P_Trust.
Local Open Scope nat_scope.

Section Pin.
Variables (a : addr) (k : pubkey).
Definition pin_ok : forall X, op X -> Prop := fun X o =>
  match o with OStoreIdentity b k' => b = a -> k' = k | _ => True end.
Definition pin_ans : forall X, op X -> res X -> Prop := fun X o =>
  match o in op T return res T -> Prop with
  | OIsTrusted b k' _ => fun x => x = Ok true -> b = a -> k' = k
  | _ => fun _ => True end.
Notation good := (pall pin_ok pin_ans).

Lemma pin_trusted : forall {A} b k' d (f : bool -> prog A) e,
  ((b = a -> k' = k) -> good (f true)) ->
  good (pdo (OIsTrusted b k' d) (fun t => if negb t then PRet (Err e) else f t)).
Proof.
  intros A b k' d f e H. apply pall_do; [exact I|]. intros [] T; cbn [negb]; [|exact I].
  apply H. apply T. reflexivity.
Qed.
Lemma pin_fetch : forall {A X} (o : op X) (f : X -> prog A), pin_ok X o -> (forall x, good (f x)) -> good (pdo o f).
Proof. intros. apply pall_do; auto. Qed.
Lemma pin_lift : forall {A X} (r : res X) (f : X -> prog A), (forall x, good (f x)) -> good (plift r f).
Proof. intros. apply pall_lift; auto. Qed.

Lemma pin_bundle : forall C b rnd bd, good (process_bundle C b rnd bd).
Proof.
  intros C b rnd bd. unfold process_bundle. destruct (bd_identity bd) as [ti|]; [|exact I].
  apply pin_trusted. intro E. destruct (bd_signed bd) as [ts|]; [|exact I].
  apply pin_lift. intros []; cbn [negb]; [|exact I].
  apply pin_fetch; [exact I|]. intro lr. destruct (gen_keypair C rnd) as [[base|e|] rnd1]; [|exact I..].
  apply pin_fetch; [exact I|]. intro ident. apply pin_lift. intro s.
  apply pin_fetch; [exact I|]. intro reg. apply pin_fetch; [exact E|]. intros _.
  destruct lr.
  - apply pin_fetch; [exact I|]. intros _. apply pin_fetch; [exact I|]. intros _. exact I.
  - apply pin_fetch; [exact I|]. intros _. exact I.
Qed.
Lemma pin_encrypt : forall C b pt, good (encrypt_message C b pt).
Proof.
  intros C b pt. unfold encrypt_message. apply pin_fetch; [exact I|]. intros [r|]; [|exact I].
  destruct (rc_current r) as [s|]; [|exact I]. apply pin_lift. intros [[msg s'] rid].
  apply pin_fetch; [exact I|]. intros _. apply pin_trusted. intro E.
  apply pin_fetch; [exact E|]. intros _. apply pin_fetch; [exact I|]. intros _. exact I.
Qed.
Lemma pin_signal : forall C b rnd m, good (decrypt_signal C b rnd m).
Proof.
  intros C b rnd m. unfold decrypt_signal. apply pin_fetch; [exact I|]. intros [r|]; [|exact I].
  assert (R : forall pt r', good (match rc_current r' with
        | None => PRet (Err (EOther "successfully decrypted; must have a current state"))
        | Some s =>
            match st_remote_identity s with
            | Ok (Some rid) =>
                pdo (OIsTrusted b rid Receiving) (fun trusted =>
                if negb trusted then PRet (Err (EUntrusted b))
                else
                  pdo (OStoreIdentity b rid) (fun _ =>
                  pdo (OStoreSession b r') (fun _ =>
                  PRet (Ok pt))))
            | Panic => PRet Panic
            | _ => PRet (Err (EOther "successfully decrypted; must have a remote identity key"))
            end
        end : prog bytes)).
  { intros pt r'. destruct (rc_current r') as [s|]; [|exact I].
    destruct (st_remote_identity s) as [[rid|]|e|]; [|exact I..].
    apply pin_trusted. intro E. apply pin_fetch; [exact E|]. intros _. apply pin_fetch; [exact I|]. intros _. exact I. }
  destruct (decrypt_record C rnd r m) as [[pt r']|e|]; [|apply R|exact I].
  apply pin_fetch; [exact I|]. intros _. apply R.
Qed.
Lemma pin_pseq : forall {A B} (p : prog A) (f : A -> prog B), good p -> (forall x, good (f x)) -> good (pseq p f).
Proof.
  intros A B p f P F. apply pall_seq with (Q := fun _ => True); auto.
  clear P. induction p as [r|X o g IH]; cbn [pres]; auto.
Qed.
Lemma pin_v3 : forall C b ex r m, good (process_prekey_v3 C b ex r m).
Proof.
  intros C b ex r m. unfold process_prekey_v3. apply pin_lift. intros []; [exact I|].
  apply pin_fetch; [exact I|]. intro sgn. apply pin_lift. intro signed.
  assert (K : forall onetime, good (pdo OKeyPair (fun ident =>
      match init_bob C ident signed onetime signed (pm_identity m) (pm_base m) with
      | Ok s =>
          pdo ORegistrationID (fun reg =>
          let s := with_regs s (ss_remote_reg s) reg in
          let s := with_regs s (pm_reg m) (ss_local_reg s) in
          let s := with_alice_base s (pub_bytes (pm_base m)) in
          let r' := rc_promote r s in
          if ex then pdo (OTouchSession b r') (fun _ => PRet (Ok (r', pm_prekey_id m)))
          else PRet (Ok (r', pm_prekey_id m)))
      | _ => PRet Panic
      end))).
  { intro onetime. apply pin_fetch; [exact I|]. intro ident.
    destruct (init_bob C ident signed onetime signed (pm_identity m) (pm_base m)) as [s|e|]; [|exact I..].
    apply pin_fetch; [exact I|]. intro reg. destruct ex; [|exact I]. apply pin_fetch; [exact I|]. intros _. exact I. }
  destruct (pm_prekey_id m); [|apply K]. apply pin_fetch; [exact I|]. intro x. apply pin_lift. exact K.
Qed.
Lemma pin_prekey : forall C b rnd m, good (decrypt_prekey C b rnd m).
Proof.
  intros C b rnd m. unfold decrypt_prekey. apply pin_fetch; [exact I|]. intro lr. apply pin_pseq.
  - unfold process_prekey. apply pin_trusted. intro E. apply pin_pseq; [apply pin_v3|].
    intros [r' id]. apply pin_fetch; [exact E|]. intros _. exact I.
  - intros [r1 pkid]. apply pin_lift. intros [pt r2].
    assert (F : good (pdo (OStoreSession b r2) (fun _ =>
      match pkid with Some id => pdo (ODeletePreKey id) (fun _ => PRet (Ok pt)) | None => PRet (Ok pt) end))).
    { apply pin_fetch; [exact I|]. intros _. destruct pkid; [|exact I]. apply pin_fetch; [exact I|]. intros _. exact I. }
    destruct lr; [|exact F]. apply pin_fetch; [exact I|]. intros _. exact F.
Qed.
(** The group calls never name an identity. *)
Lemma pin_group : forall {A} (p : prog A) b d, pall (in_group b d) any_ans p -> good p.
Proof.
  intros A p b d. induction p as [r|X o g IH]; intro P; [exact I|]. destruct P as [P1 P2]. split.
  - destruct o; try exact I. destruct P1.
  - intros x _. apply IH. apply P2. exact I.
Qed.
End Pin.

Definition pinned (a : addr) (k : pubkey) (pol : addr -> option pubkey -> pubkey -> direction -> bool) (w : world) : Prop :=
  w_ident w a = Some k /\ w_policy w = pol.
Lemma exec_policy : forall X (o : op X) w, w_policy (snd (exec o w)) = w_policy w.
Proof. intros X o w. destruct o; cbn [exec snd]; try destruct (w_shared w); reflexivity. Qed.
Lemma pin_exec : forall a k pol, (forall k' d, pol a (Some k) k' d = true -> k' = k) ->
  forall X (o : op X) f w, pinned a k pol w -> pin_ok a k X o ->
  pinned a k pol (snd (exec_f o f w)) /\ pin_ans a k X o (fst (exec_f o f w)).
Proof.
  intros a k pol P X o f w [W1 W2] O. split.
  - destruct (exec_f_cases X o f w) as [E|E]; rewrite E; [split; assumption|]. split; [|rewrite exec_policy; exact W2].
    destruct o; cbn [exec snd]; try exact W1; try (destruct (w_shared w); exact W1).
    cbn [w_ident set_ident]. destruct (addr_eqb a a0) eqn:Q; [|exact W1].
    apply addr_eqb_eq in Q. subst a0. rewrite (O eq_refl). reflexivity.
  - destruct o; try exact I. cbn [pin_ans exec_f fallible exec]. destruct f; cbn [fst]; [|discriminate..].
    intros E ->. injection E as E. rewrite W1, W2 in E. exact (P _ _ E).
Qed.

From Verif Require Import P_Isolation.
Lemma pin_start : forall a k C c, thread_all (pin_ok a k) (pin_ans a k) (start C c).
Proof.
  intros a k C c. pose proof (calls_scope C c) as S0. destruct c; cbn [start thread_all scope_of in_scope] in *.
  1: apply pin_bundle. 1: apply pin_encrypt. 1: destruct c; cbn [decrypt_message]; [apply pin_signal|apply pin_prekey|exact I..].
  all: eapply pin_group; exact S0.
Qed.
Lemma first_use_kept : forall C w0 a k, first_use_policy w0 -> w_ident w0 a = Some k ->
  forall ts w, lib_steps C w0 (ts, w) -> w_ident w a = Some k.
Proof.
  intros C w0 a k P W ts w R.
  assert (G : Forall (thread_all (pin_ok a k) (pin_ans a k)) (fst (ts, w)) /\ pinned a k (w_policy w0) (snd (ts, w))).
  { induction R as [|c ts1 w1 R IH|ts1 ts2 A X o g f w1 x w2 R IH E|ts1 t ts2 w1 R IH]; cbn [fst snd] in *.
    - split; [constructor|]. split; auto.
    - destruct IH as [F Q]. split; [|exact Q]. constructor; [apply pin_start|exact F].
    - destruct IH as [F Q]. apply Forall_app in F. destruct F as [F1 F2]. inversion F2 as [|t l T F3]; subst.
      cbn [thread_all] in T. destruct T as [T1 T2].
      destruct (pin_exec a k (w_policy w0) (fun k' d => P a k k' d) X o f w1 Q T1) as [Q1 Q2].
      rewrite E in Q1, Q2. cbn [fst snd] in Q1, Q2. split; [|exact Q1].
      apply Forall_app. split; [exact F1|]. constructor; [|exact F3]. exact (T2 x Q2).
    - destruct IH as [F Q]. apply Forall_app in F. destruct F as [F1 F2]. inversion F2; subst.
      split; [|exact Q]. apply Forall_app. auto. }
  exact (proj1 (proj2 G)).
Qed.

(** Two calls that both passed the trust check. *)
Lemma addr_refl : forall a, addr_eqb a a = true.
Proof. intro a. apply addr_eqb_eq. reflexivity. Qed.
Lemma bundle_after_check : forall C a rnd b w w' ti ts base rnd1 s0 rest, bd_identity b = Some ti -> bd_signed b = Some ts ->
    w_policy w a (w_ident w a) ti Sending = true ->
    verify_signature C ti (bd_signature b) [pub_bytes ts] = Ok true ->
    gen_keypair C rnd = (Ok base, rnd1) ->
    init_alice C rnd1 (w_pair w') base ti ts (bd_prekey b) ts = (Ok s0, rest) ->
  exists q, pstep (process_bundle C a rnd b) FNone w = (q, w) /\
    exists w2, run0 q w' = (Ok tt, w2) /\ w_ident w2 a = Some ti.
Proof.
  intros C a rnd b w w' ti ts base rnd1 s0 rest E1 E2 T V G H. unfold process_bundle. rewrite E1.
  unfold pdo at 1. cbn [pstep exec_f fallible exec]. rewrite T. eexists. split; [reflexivity|].
  cbn [negb]. rewrite E2, V. cbn [plift negb]. unfold run0.
  unfold pdo at 1. cbn [run exec_f fallible exec hd_fault tl]. rewrite G.
  unfold pdo at 1. cbn [run exec_f fallible exec hd_fault tl]. rewrite H. cbn [plift fst].
  unfold pdo at 1. cbn [run exec_f fallible exec hd_fault tl].
  unfold pdo at 1. cbn [run exec_f fallible exec hd_fault tl].
  set (s1 := with_alice_base _ _). clearbody s1.
  destruct (w_sess w' a) as [r|].
  - unfold pdo at 1. cbn [run exec_f fallible exec hd_fault tl]. unfold pdo at 1. cbn [run exec_f fallible exec hd_fault tl].
    eexists. split; [reflexivity|]. destruct (w_shared _); cbn [w_ident set_sess set_ident]; rewrite addr_refl; reflexivity.
  - unfold pdo at 1. cbn [run exec_f fallible exec hd_fault tl].
    eexists. split; [reflexivity|]. cbn [w_ident set_sess set_ident]; rewrite addr_refl; reflexivity.
Qed.
Lemma bundle_world_pair : forall w a ti r, w_pair (bundle_world w a ti r) = w_pair w.
Proof. intros. unfold bundle_world. destruct (_ && _)%bool; reflexivity. Qed.
Lemma bundle_world_ident : forall w a ti r, w_ident (bundle_world w a ti r) a = Some ti.
Proof. intros. unfold bundle_world. destruct (_ && _)%bool; cbn [w_ident set_sess set_ident]; rewrite addr_refl; reflexivity. Qed.
Lemma bundle_world_policy : forall w a ti r, w_policy (bundle_world w a ti r) = w_policy w.
Proof. intros. unfold bundle_world. destruct (_ && _)%bool; reflexivity. Qed.

Lemma first_use_race : forall C a rnd1 b1 rnd2 b2 w k1 k2 w1 w2,
  bd_identity b1 = Some k1 -> bd_identity b2 = Some k2 ->
  run0 (process_bundle C a rnd1 b1) w = (Ok tt, w1) -> run0 (process_bundle C a rnd2 b2) w = (Ok tt, w2) ->
  w_ident w1 a = Some k1 /\
  (exists w', run2 [false] (process_bundle C a rnd1 b1) (process_bundle C a rnd2 b2) w = (Ok tt, Ok tt, w') /\
     w_ident w' a = Some k2) /\
  (first_use_policy w -> k2 <> k1 ->
   (exists e, fst (run0 (process_bundle C a rnd2 b2) w1) = Err e) /\ snd (run0 (process_bundle C a rnd2 b2) w1) = w1).
Proof.
  intros C a rnd1 b1 rnd2 b2 w k1 k2 w1 w2 I1 I2 R1 R2.
  destruct (bundle_success _ _ _ _ _ _ _ R1) as (t1 & ts1 & base1 & r1 & s1 & rest1 & A1 & A2 & A3 & A4 & A5 & A6 & A7).
  destruct (bundle_success _ _ _ _ _ _ _ R2) as (t2 & ts2 & base2 & r2 & s2 & rest2 & B1 & B2 & B3 & B4 & B5 & B6 & _).
  assert (t1 = k1) by congruence. assert (t2 = k2) by congruence. subst t1 t2.
  assert (P : w_pair w1 = w_pair w) by (rewrite A7; apply bundle_world_pair).
  assert (D : w_ident w1 a = Some k1) by (rewrite A7; apply bundle_world_ident).
  rewrite <- P in B6. split; [exact D|]. split.
  - destruct (bundle_after_check C a rnd2 b2 w w1 _ _ _ _ _ _ B1 B2 B3 B4 B5 B6) as (q & Eq & w' & Ew & Ei).
    exists w'. cbn [run2]. rewrite Eq, R1, Ew. split; [reflexivity|exact Ei].
  - intros F N.
    assert (T : w_policy w1 a (w_ident w1 a) k2 Sending = false).
    { rewrite D. destruct (w_policy w1 a (Some k1) k2 Sending) eqn:T; [|reflexivity].
      rewrite A7, bundle_world_policy in T. apply F in T. contradiction. }
    assert (Q : run0 (process_bundle C a rnd2 b2) w1 = (Err (EOther "untrusted identity"), w1)).
    { unfold process_bundle, run0. rewrite I2. unfold pdo at 1. cbn [run exec_f fallible exec hd_fault]. rewrite T. reflexivity. }
    rewrite Q. cbn [fst snd]. split; [eexists; reflexivity|reflexivity].
Qed.
