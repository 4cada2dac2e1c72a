(** Records: promotion, the loop over archived states, decryptMessage. *)
From Verif Require Import M_Base M_Crypto M_Aes M_Curve M_Proto M_Message M_Ratchet M_State M_Store M_Session
  S_Crypto S_Message S_State S_Shape S_Ratchet S_Session S_Aes
  P_Base P_Proto P_Curve P_State P_Shape P_Ratchet P_Message P_Aes P_Chain P_Decrypt P_Receive P_Encrypt.
From Coq Require Import ZifyBool ZifyNat ZifyN.
Local Open Scope nat_scope.

(** *** Promotion *)
(** The archive after one more state: the oldest is dropped beyond 40. *)
Lemma archive_list : forall {A} (l : list A) x, List.length l <= 40 ->
  (if Nat.leb max_archived_states (List.length l) then skipn 1 l else l) ++ [x] = keep_last 40 (l ++ [x]).
Proof.
  intros A l x L. unfold keep_last. rewrite app_length. cbn [List.length]. unfold max_archived_states.
  destruct (Nat.leb_spec 40 (List.length l)).
  - replace (List.length l + 1 - 40) with 1 by lia. destruct l; [cbn in *; lia|]. reflexivity.
  - replace (List.length l + 1 - 40) with 0 by lia. reflexivity.
Qed.

Lemma promote_exact : forall r s, wf_record r ->
  rc_promote r s = mkRecord (Some s)
    (match rc_current r with Some c => keep_last 40 (rc_previous r ++ [state_bytes c]) | None => rc_previous r end).
Proof.
  intros r s (_ & L & _). unfold rc_promote, rc_archive. destruct (rc_current r) as [c|]; [|reflexivity].
  cbn [rc_previous]. rewrite archive_list by exact L. reflexivity.
Qed.

Lemma keep_last_forall : forall {A} (P : A -> Prop) n l, Forall P l -> Forall P (keep_last n l).
Proof. intros A P n l F. apply Forall_forall. intros x I. rewrite Forall_forall in F. apply F. eapply keep_last_in; eauto. Qed.
Lemma keep_last_le : forall {A} n (l : list A), List.length (keep_last n l) <= n.
Proof. intros. rewrite keep_last_length. lia. Qed.
Lemma keep_last_map : forall {A B} (f : A -> B) n l, keep_last n (map f l) = map f (keep_last n l).
Proof. intros. unfold keep_last. rewrite map_length, <- skipn_map. reflexivity. Qed.

Lemma promote_wf : forall r s, wf_record r -> wf_state s -> wf_record (rc_promote r s).
Proof.
  intros r s W Ws. rewrite (promote_exact r s W). destruct W as (Wc & L & F). split; [|split]; cbn [rc_current rc_previous].
  - intros x E. injection E as <-. exact Ws.
  - destruct (rc_current r); [apply keep_last_le|exact L].
  - destruct (rc_current r) as [c|]; [|exact F]. apply keep_last_forall. apply Forall_app. split; [exact F|].
    constructor; [|constructor]. exists c. auto.
Qed.

Lemma remove_wf : forall r i, wf_record r ->
  wf_record (mkRecord (rc_current r) (firstn i (rc_previous r) ++ skipn (S i) (rc_previous r))).
Proof.
  intros r i (Wc & L & F). split; [exact Wc|]. cbn [rc_previous]. split.
  - rewrite app_length, firstn_length, skipn_length. lia.
  - apply Forall_app. rewrite Forall_forall in F. split; apply Forall_forall; intros x I; apply F.
    + rewrite <- (firstn_skipn i (rc_previous r)). apply in_or_app. auto.
    + rewrite <- (firstn_skipn (S i) (rc_previous r)). apply in_or_app. auto.
Qed.

Lemma promote_old_wf : forall r i s, wf_record r -> wf_state s -> wf_record (rc_promote_old r i s).
Proof.
  intros r i s W Ws. unfold rc_promote_old. destruct (Nat.leb _ _); [exact W|].
  apply promote_wf; auto. apply remove_wf; auto.
Qed.
Lemma set_state_wf : forall r s, wf_record r -> wf_state s -> wf_record (rc_set_state r s).
Proof.
  intros r s (Wc & L & F) Ws. split; [|split]; auto. cbn. intros x E. injection E as <-. exact Ws.
Qed.
Lemma new_record_wf : wf_record (new_record None).
Proof. split; [discriminate|]. cbn. split; [lia|constructor]. Qed.

(** *** decryptMessage on a record *)
(** The states are tried in order; the random reader is threaded through. *)
Inductive attempts (C : Crypto) (m : signal) : bytes -> list state -> list (res (bytes * state)) -> bytes -> Prop :=
| at_nil : forall rnd, attempts C m rnd [] [] rnd
| at_cons : forall rnd s o rnd1 l os rest, decrypt_session C rnd s m = (o, rnd1) ->
    attempts C m rnd1 l os rest -> attempts C m rnd (s :: l) (o :: os) rest.

Lemma attempts_total : forall C m l rnd, exists os rest, attempts C m rnd l os rest.
Proof.
  intros C m l. induction l as [|s l IH]; intro rnd; [eexists _, _; constructor|].
  destruct (decrypt_session C rnd s m) as [o r1] eqn:E. destruct (IH r1) as (os & rest & A).
  eexists _, _. econstructor; eauto.
Qed.
Lemma attempts_length : forall C m rnd l os rest, attempts C m rnd l os rest -> List.length os = List.length l.
Proof. intros C m rnd l os rest A. induction A; cbn; auto. Qed.
Lemma attempts_nth : forall C m rnd l os rest i s, attempts C m rnd l os rest -> nth_error l i = Some s ->
  exists o r1 r2, nth_error os i = Some o /\ decrypt_session C r1 s m = (o, r2).
Proof.
  intros C m rnd l os rest i s A. revert i. induction A; intros i E; [destruct i; discriminate|].
  destruct i; cbn [nth_error] in *; [|auto]. injection E as <-. eauto.
Qed.

(** What the loop returns given the outcomes: stops at the first duplicate (or panic),
    otherwise the last success. *)
Fixpoint loop_result (i : nat) (os : list (res (bytes * state))) (found : option (nat * state * bytes))
  : res (option (nat * state * bytes)) :=
  match os with
  | [] => Ok found
  | Ok (pt, s) :: r => loop_result (S i) r (Some (i, s, pt))
  | Err EDuplicate :: _ => Err EDuplicate
  | Err _ :: r => loop_result (S i) r found
  | Panic :: _ => Panic
  end.
Lemma try_previous_loop : forall C m rnd l os rest, attempts C m rnd l os rest ->
  forall i found, fst (try_previous C rnd i l m found) = loop_result i os found.
Proof.
  intros C m rnd l os rest A. induction A as [|rnd s o rnd1 l os rest E A IH]; intros i found; [reflexivity|].
  cbn [try_previous loop_result]. rewrite E. destruct o as [[pt s']|e|]; [apply IH| |reflexivity].
  destruct e; try apply IH. reflexivity.
Qed.

Lemma loop_result_found : forall os i found j s pt, loop_result i os found = Ok (Some (j, s, pt)) ->
  (found = Some (j, s, pt) \/ (i <= j /\ nth_error os (j - i) = Some (Ok (pt, s)))).
Proof.
  intros os. induction os as [|o os IH]; intros i found j s pt E; cbn [loop_result] in E.
  - injection E as ->. auto.
  - assert (K : forall f, loop_result (S i) os f = Ok (Some (j, s, pt)) ->
      f = Some (j, s, pt) \/ (i <= j /\ nth_error (o :: os) (j - i) = Some (Ok (pt, s)))).
    { intros f X. destruct (IH _ _ _ _ _ X) as [Y|[Y Z]]; [auto|]. right. split; [lia|].
      replace (j - i) with (S (j - S i)) by lia. exact Z. }
    destruct o as [[pt' s']|e|]; [|destruct e; first [discriminate E | apply K in E; exact E]|discriminate].
    destruct (K _ E) as [X|X]; [|auto]. injection X as -> -> ->. right. split; [lia|]. rewrite Nat.sub_diag. reflexivity.
Qed.

(** One success, no duplicate, no panic: that success is returned. *)
Lemma loop_result_only : forall os i found j s pt,
  nth_error os j = Some (Ok (pt, s)) ->
  (forall j' o, nth_error os j' = Some o -> j' <> j -> exists e, o = Err e /\ e <> EDuplicate) ->
  loop_result i os found = Ok (Some (i + j, s, pt)).
Proof.
  assert (K : forall os i found, (forall j' o, nth_error os j' = Some o -> exists e, o = Err e /\ e <> EDuplicate) ->
     loop_result i os found = Ok found).
  { intros os. induction os as [|o os IH]; intros i found N; [reflexivity|]. cbn [loop_result].
    destruct (N 0 o eq_refl) as (e & -> & Ne). destruct e; try contradiction;
      (apply IH; intros j' o E; exact (N (S j') o E)). }
  intros os. induction os as [|o os IH]; intros i found j s pt E N; [destruct j; discriminate|].
  destruct j as [|j]; cbn [nth_error] in E.
  - injection E as ->. cbn [loop_result]. rewrite K; [rewrite Nat.add_0_r; reflexivity|].
    intros j' o E. apply (N (S j') o E). discriminate.
  - destruct (N 0 o eq_refl) as (e & -> & Ne); [discriminate|].
    assert (X : loop_result (S i) os found = Ok (Some (i + S j, s, pt))).
    { rewrite (IH (S i) found j s pt E).
      - rewrite Nat.add_succ_r. reflexivity.
      - intros j' o E' Nj. apply (N (S j') o E'). congruence. }
    cbn [loop_result]. destruct e; try contradiction; exact X.
Qed.

(** Nothing accepts. *)
Lemma loop_result_none : forall os i, (forall o, In o os -> forall x, o <> Ok x) ->
  forall r, loop_result i os None <> Ok (Some r).
Proof.
  intros os. induction os as [|o os IH]; intros i N r; cbn [loop_result]; [discriminate|].
  assert (X : loop_result (S i) os None <> Ok (Some r)) by (apply IH; intros; apply N; right; auto).
  destruct o as [[pt s]|e|]; [|destruct e; first [discriminate|exact X]|discriminate].
  exfalso. apply (N (Ok (pt, s)) (or_introl eq_refl) (pt, s)). reflexivity.
Qed.

Lemma state_in_wf : forall r s, wf_record r -> state_in s r -> wf_state s.
Proof.
  intros r s (W1 & _ & W2) [E|(b & I & E)]; [apply W1; exact E|]. rewrite Forall_forall in W2. destruct (W2 b I) as (s' & Ws & ->).
  rewrite wf_roundtrip in E by exact Ws. injection E as <-. exact Ws.
Qed.
Lemma state_in_bytes : forall r s, wf_state s -> (rc_current r = Some s \/ In (state_bytes s) (rc_previous r)) -> state_in s r.
Proof. intros r s W [E|I]; [left; exact E|right]. exists (state_bytes s). split; [exact I|apply wf_roundtrip; exact W]. Qed.

Lemma decrypt_record_inv : forall C rnd r m pt r', CryptoOk C -> wf_record r -> wf_signal m ->
  decrypt_record C rnd r m = Ok (pt, r') ->
  exists s s' r1 r2, (rc_current r = Some s \/ In (state_bytes s) (rc_previous r)) /\ wf_state s /\
    decrypt_session C r1 s m = (Ok (pt, s'), r2) /\ rc_current r' = Some s' /\ wf_record r'.
Proof.
  intros C rnd r m pt r' H W Wm E. unfold decrypt_record in E.
  assert (K : forall rnd0,
    (do l <- rc_previous_states r;
     match try_previous C rnd0 0 l m None with
     | (Ok (Some (i, s, pt)), _) => Ok (pt, rc_promote_old r i s)
     | (Ok None, _) => Err (EOther "decryption failed: invalid message")
     | (Err e, _) => Err e
     | (Panic, _) => Panic
     end) = Ok (pt, r') ->
    exists s s' r1 r2, (rc_current r = Some s \/ In (state_bytes s) (rc_previous r)) /\ wf_state s /\
    decrypt_session C r1 s m = (Ok (pt, s'), r2) /\ rc_current r' = Some s' /\ wf_record r').
  { intros rnd0 X. destruct (wf_record_parse r W) as (p & P & Fp & M & _). rewrite P in X. cbn [bind] in X.
    destruct (attempts_total C m p rnd0) as (os & rest & A).
    pose proof (try_previous_loop _ _ _ _ _ _ A 0 None) as T.
    destruct (try_previous C rnd0 0 p m None) as [[[[[i s'] pt']|]| |] q]; cbn [fst] in T; [|discriminate..].
    injection X as -> <-. symmetry in T. apply loop_result_found in T. destruct T as [T|[_ T]]; [discriminate|].
    rewrite Nat.sub_0_r in T.
    assert (Li : i < List.length p).
    { rewrite <- (attempts_length _ _ _ _ _ _ A). apply nth_error_Some. congruence. }
    destruct (nth_error p i) as [s|] eqn:Ep; [|apply nth_error_None in Ep; lia].
    destruct (attempts_nth _ _ _ _ _ _ _ _ A Ep) as (o & r1 & r2 & Eo & D). rewrite T in Eo. injection Eo as <-.
    assert (Ip : In s p) by (eapply nth_error_In; eauto).
    assert (Ws : wf_state s) by (rewrite Forall_forall in Fp; auto).
    destruct (decrypt_session_inv _ _ _ _ _ _ _ H Ws Wm D) as (Ws' & _).
    exists s, s', r1, r2. split; [right; rewrite M; apply in_map; auto|]. split; [auto|]. split; [auto|].
    split; [|apply promote_old_wf; auto].
    unfold rc_promote_old. rewrite M, map_length. destruct (Nat.leb_spec (List.length p) i); [lia|reflexivity]. }
  destruct (rc_current r) as [s|] eqn:Ec.
  - destruct (decrypt_session C rnd s m) as [[[pt' s']|e|] q] eqn:D; [| |discriminate].
    + injection E as -> <-. assert (Ws : wf_state s) by (apply W; auto).
      destruct (decrypt_session_inv _ _ _ _ _ _ _ H Ws Wm D) as (Ws' & _).
      exists s, s', rnd, q. split; [auto|]. split; [auto|]. split; [auto|]. split; [reflexivity|]. apply set_state_wf; auto.
    + destruct e; try (exact (K _ E)); discriminate.
  - exact (K _ E).
Qed.

Lemma decrypt_record_no_panic : forall C rnd r m, CryptoOk C -> wf_record r -> wf_signal m ->
  decrypt_record C rnd r m <> Panic.
Proof.
  intros C rnd r m H W Wm. unfold decrypt_record.
  assert (K : forall rnd0,
    (do l <- rc_previous_states r;
     match try_previous C rnd0 0 l m None with
     | (Ok (Some (i, s, pt)), _) => Ok (pt, rc_promote_old r i s)
     | (Ok None, _) => Err (EOther "decryption failed: invalid message")
     | (Err e, _) => Err e
     | (Panic, _) => Panic
     end) <> Panic).
  { intro rnd0. destruct (wf_record_parse r W) as (p & P & Fp & M & _). rewrite P. cbn [bind].
    destruct (attempts_total C m p rnd0) as (os & rest & A).
    pose proof (try_previous_loop _ _ _ _ _ _ A 0 None) as T.
    assert (N : forall o, In o os -> o <> Panic).
    { intros o I. apply In_nth_error in I. destruct I as [i I].
      assert (Li : i < List.length p) by (rewrite <- (attempts_length _ _ _ _ _ _ A); apply nth_error_Some; congruence).
      destruct (nth_error p i) as [s|] eqn:Ep; [|apply nth_error_None in Ep; lia].
      destruct (attempts_nth _ _ _ _ _ _ _ _ A Ep) as (o' & r1 & r2 & Eo & D). rewrite I in Eo. injection Eo as <-.
      intros ->. assert (Ws : wf_state s) by (rewrite Forall_forall in Fp; apply Fp; eapply nth_error_In; eauto).
      exact (decrypt_session_no_panic _ _ _ _ _ H Ws Wm D). }
    assert (NP : forall os i f, (forall o, In o os -> o <> Panic) -> loop_result i os f <> Panic).
    { clear. intros os. induction os as [|o os IH]; intros i f N; cbn [loop_result]; [discriminate|].
      assert (IH' : forall i f, loop_result i os f <> Panic) by (intros; apply IH; intros; apply N; right; auto).
      destruct o as [[? ?]|e|]; [apply IH'|destruct e; first [apply IH'|discriminate]|].
      exfalso. apply (N Panic (or_introl eq_refl)). reflexivity. }
    destruct (try_previous C rnd0 0 p m None) as [[[[[i s'] pt']|]| |] q]; cbn [fst] in T; try discriminate.
    exfalso. apply (NP os 0 None N). auto. }
  destruct (rc_current r) as [s|] eqn:Ec; [|apply K].
  destruct (decrypt_session C rnd s m) as [[[pt' s']|e|] q] eqn:D; [discriminate| |].
  - destruct e; try apply K; discriminate.
  - exfalso. assert (Ws : wf_state s) by (apply W; auto). exact (decrypt_session_no_panic _ _ _ _ _ H Ws Wm D).
Qed.
