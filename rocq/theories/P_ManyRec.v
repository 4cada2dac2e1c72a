(** A record with several sessions, one of which opens the message (C85). *)
From Verif Require Import M_Base M_Crypto M_Aes M_Curve M_Proto M_Message M_Ratchet M_State M_Store M_Session M_Group
  S_Crypto S_Message S_State S_Shape S_Ratchet S_Session S_Aes S_Api S_Send S_Group S_Curve S_X3dh S_Receive S_Conv S_History
  P_Base P_Proto P_Curve P_State P_Shape P_Ratchet P_Message P_Aes P_Chain P_Decrypt P_Receive P_Encrypt P_Record P_Prog P_Archive.
From Coq Require Import Permutation.
Local Open Scope nat_scope.

Definition cur (r : record) : list state := match rc_current r with Some s => [s] | None => [] end.
Definition sessions_of (r : record) : list state := cur r ++ match rc_previous_states r with Ok p => p | _ => [] end.

Lemma prev_exact : forall r p, wf_record r -> Forall wf_state p -> rc_previous r = map state_bytes p -> rc_previous_states r = Ok p.
Proof.
  intros r p W F E. destruct (wf_record_parse r W) as (q & Q & Fq & Eq & _). rewrite Q. f_equal. rewrite E in Eq. clear - F Fq Eq.
  revert q Fq Eq. induction F as [|x p Wx F IH]; intros q Fq Eq; destruct q as [|y q]; try discriminate; [reflexivity|]. injection Eq as E1 E2.
  inversion Fq; subst. f_equal; [|apply IH; auto]. pose proof (wf_roundtrip x Wx) as R. rewrite E1, wf_roundtrip in R by auto. congruence.
Qed.
Lemma sessions_in : forall r s, wf_record r -> (In s (sessions_of r) <-> state_in s r).
Proof.
  intros r s W. unfold sessions_of, cur. destruct (wf_record_parse r W) as (p & Ep & F & Eb & _). rewrite Ep. rewrite in_app_iff. unfold state_in. rewrite Eb. split.
  - intros [J|J].
    + left. destruct (rc_current r); [destruct J as [J|[]]; congruence|destruct J].
    + right. exists (state_bytes s). split; [apply in_map; exact J|]. apply wf_roundtrip. rewrite Forall_forall in F. auto.
  - intros [J|(x & J & P)]; [left; rewrite J; left; reflexivity|right]. apply in_map_iff in J. destruct J as (y & <- & J).
    rewrite Forall_forall in F. rewrite wf_roundtrip in P by auto. injection P as <-. exact J.
Qed.
Lemma sessions_set : forall r s s', rc_current r = Some s -> exists t, sessions_of r = s :: t /\ sessions_of (rc_set_state r s') = s' :: t.
Proof. intros r s s' E. unfold sessions_of, cur. rewrite E. cbn. eauto. Qed.
Lemma sessions_promote : forall r s, wf_record r -> wf_state s -> List.length (sessions_of r) <= 40 ->
  Permutation (sessions_of (rc_promote r s)) (s :: sessions_of r).
Proof.
  intros r s W Ws L. destruct (promoted r s W) as [P1 P2]. destruct (wf_record_parse r W) as (p & Ep & F & Eb & Lp).
  assert (W' : wf_record (rc_promote r s)) by (apply promote_wf; auto). unfold sessions_of at 1, cur. rewrite P1. cbn [app]. constructor.
  unfold sessions_of, cur in *. rewrite Ep in *. rewrite Eb in P2. destruct (rc_current r) as [c|] eqn:Ec.
  - rewrite app_length in L. cbn [List.length] in L.
    assert (E : rc_previous (rc_promote r s) = map state_bytes (p ++ [c])).
    { rewrite P2, map_app. cbn [map]. unfold last_n. rewrite app_length, map_length. cbn [List.length]. replace (List.length p + 1 - 40) with 0 by lia. reflexivity. }
    rewrite (prev_exact _ (p ++ [c]) W'); [cbn [app]; apply Permutation_sym, Permutation_cons_append| |exact E].
    apply Forall_app. split; [exact F|constructor; [|constructor]]. apply (proj1 W). exact Ec.
  - rewrite (prev_exact _ p W' F P2). reflexivity.
Qed.
Lemma sessions_old : forall r s s' l1 l2, wf_record r -> wf_state s' -> Forall wf_state (l1 ++ s :: l2) -> rc_previous r = map state_bytes (l1 ++ s :: l2) ->
  rc_current (rc_promote_old r (List.length l1) s') = Some s' /\
  exists t, Permutation (sessions_of r) (s :: t) /\ Permutation (sessions_of (rc_promote_old r (List.length l1) s')) (s' :: t).
Proof.
  intros r s s' l1 l2 W Ws F E. pose proof (prev_exact r _ W F E) as Ep.
  assert (W' : wf_record (rc_promote_old r (List.length l1) s')) by (apply promote_old_wf; auto).
  assert (E' := E). rewrite map_app in E'. cbn [map] in E'.
  destruct (promoted_old r s' (map state_bytes l1) (state_bytes s) (map state_bytes l2) W E') as [P1 P2]. rewrite map_length in P1, P2.
  split; [exact P1|]. apply Forall_app in F. destruct F as [F1 F2]. inversion F2 as [|? ? Wx F3]; subst.
  exists (cur r ++ l1 ++ l2). split.
  - unfold sessions_of. rewrite Ep. rewrite app_assoc. eapply Permutation_trans; [apply Permutation_sym, Permutation_middle|]. rewrite <- app_assoc. reflexivity.
  - unfold sessions_of at 1. unfold cur at 1. rewrite P1. cbn [app]. constructor.
    rewrite (prev_exact _ (l1 ++ l2 ++ cur r) W').
    + rewrite app_assoc. apply Permutation_app_comm.
    + apply Forall_app. split; [exact F1|]. apply Forall_app. split; [exact F3|]. unfold cur. destruct (rc_current r) as [c|] eqn:Ec; constructor; [|constructor].
      apply (proj1 W). exact Ec.
    + rewrite P2, !map_app. unfold cur. destruct (rc_current r); reflexivity.
Qed.

(** What an attempt leaves of the random bytes. *)
Lemma gen_rest : forall C rnd o rest, gen_keypair C rnd = (o, rest) -> rest = skipn 32 rnd.
Proof.
  intros C rnd o rest. unfold gen_keypair, gen_private_key, read_full. destruct (Nat.ltb_spec (List.length rnd) 32) as [L|L].
  - intro E. injection E as _ <-. rewrite skipn_all2; [reflexivity|lia].
  - destruct (new_private_key C (firstn 32 rnd)); intro E; injection E as _ <-; reflexivity.
Qed.
Lemma attempt_rest : forall C rnd s m o rest, decrypt_session C rnd s m = (o, rest) -> rest = rnd \/ rest = skipn 32 rnd.
Proof.
  intros C rnd s m o rest E. unfold decrypt_session in E. destruct (ss_sender s); [|injection E as _ <-; auto].
  destruct (negb _); [injection E as _ <-; auto|].
  assert (K : forall o' rest', get_chain_key C rnd s (sg_ratchet m) = (o', rest') -> rest' = rnd \/ rest' = skipn 32 rnd).
  { intros o' rest' G. unfold get_chain_key in G. destruct (st_receiver_chain_key s (sg_ratchet m)) as [[?|]| |]; try (injection G as _ <-; auto).
    destruct (bind (st_root s) _) as [[? ?]| |]; try (injection G as _ <-; auto).
    destruct (gen_keypair C rnd) as [k rest2] eqn:Eg. right. rewrite <- (gen_rest _ _ _ _ Eg).
    destruct k; injection G as _ <-; reflexivity. }
  destruct (get_chain_key C rnd s (sg_ratchet m)) as [o' rest'] eqn:G. specialize (K _ _ eq_refl).
  destruct o' as [[? ?]| |]; injection E as _ <-; exact K.
Qed.
Lemma skip_more : forall (rnd : bytes) j, skipn 32 (skipn (32 * j) rnd) = skipn (32 * S j) rnd.
Proof. intros rnd j. rewrite skipn_skipn'. f_equal. lia. Qed.
Lemma attempts_nth_rnd : forall C m rnd0 l os rest, attempts C m rnd0 l os rest -> forall rnd j0 i s, rnd0 = skipn (32 * j0) rnd -> nth_error l i = Some s ->
  exists o j r2, j <= j0 + i /\ nth_error os i = Some o /\ decrypt_session C (skipn (32 * j) rnd) s m = (o, r2).
Proof.
  intros C m rnd0 l os rest A. induction A as [rnd1|rnd1 s o rnd2 l os rest D A IH]; intros rnd j0 i x E En; [destruct i; discriminate|].
  destruct i as [|i]; cbn [nth_error] in *.
  - injection En as <-. subst rnd1. exists o, j0, rnd2. split; [lia|]. auto.
  - assert (K : exists j1, j1 <= S j0 /\ rnd2 = skipn (32 * j1) rnd).
    { destruct (attempt_rest _ _ _ _ _ _ D) as [->| ->]; [exists j0; split; [lia|exact E]|]. exists (S j0). split; [lia|]. rewrite E. apply skip_more. }
    destruct K as (j1 & Lj & Ej). destruct (IH rnd j1 i x Ej En) as (o' & j & r2 & L & Q1 & Q2). exists o', j, r2. split; [lia|]. auto.
Qed.

Section Reads.
Variable C : Crypto.
Hypothesis H : CryptoOk C.
Lemma record_reads : forall rnd r m s pt, wf_record r -> wf_signal m -> In s (sessions_of r) -> NoDup (map ss_alice_base (sessions_of r)) ->
  (forall x rnd', In x (sessions_of r) -> ss_alice_base x <> ss_alice_base s -> exists e, fst (decrypt_session C rnd' x m) = Err e /\ e <> EDuplicate) ->
  (forall j, j < List.length (sessions_of r) -> exists s' rest, decrypt_session C (skipn (32 * j) rnd) s m = (Ok (pt, s'), rest)) ->
  exists j s' rest r', j < List.length (sessions_of r) /\ decrypt_session C (skipn (32 * j) rnd) s m = (Ok (pt, s'), rest) /\
    decrypt_record C rnd r m = Ok (pt, r') /\ rc_current r' = Some s' /\
    exists t, Permutation (sessions_of r) (s :: t) /\ Permutation (sessions_of r') (s' :: t).
Proof using H.
  intros rnd r m s pt W Wm J D Os As.
  assert (Cu : rc_current r = Some s \/ rc_current r <> Some s) by (destruct (rc_current r) as [c|] eqn:Ec; [|right; discriminate];
    destruct (in_app_or _ _ _ J) as [Q|Q]; [unfold cur in Q; rewrite Ec in Q; destruct Q as [->|[]]; left; reflexivity|];
    right; intro X; injection X as ->; unfold sessions_of, cur in D; rewrite Ec in D; cbn [app map] in D; inversion D as [|? ? Dx _]; subst; apply Dx; apply in_map; exact Q).
  assert (L0 : 0 < List.length (sessions_of r)) by (destruct (sessions_of r); [destruct J|cbn; lia]).
  destruct Cu as [Ec|Nc].
  - destruct (As 0 L0) as (s' & rest & E). change (skipn (32 * 0) rnd) with rnd in E. exists 0, s', rest, (rc_set_state r s'). split; [exact L0|]. change (skipn (32 * 0) rnd) with rnd.
    split; [exact E|]. split; [unfold decrypt_record; rewrite Ec, E; reflexivity|]. split; [reflexivity|].
    destruct (sessions_set r s s' Ec) as (t & E1 & E2). exists t. rewrite E1, E2. split; reflexivity.
  - destruct (wf_record_parse r W) as (p & Ep & F & Eb & _).
    assert (Jp : In s p).
    { unfold sessions_of, cur in J. rewrite Ep in J. destruct (in_app_or _ _ _ J) as [Q|Q]; [|exact Q]. destruct (rc_current r); [destruct Q as [->|[]]; contradiction|destruct Q]. }
    destruct (in_split _ _ Jp) as (l1 & l2 & El).
    assert (Lc : List.length (sessions_of r) = List.length (cur r) + List.length p) by (unfold sessions_of; rewrite Ep, app_length; reflexivity).
    assert (Lp : List.length p = List.length l1 + S (List.length l2)) by (rewrite El, app_length; reflexivity).
    assert (Nb : forall x, In x (cur r ++ l1 ++ l2) -> ss_alice_base x <> ss_alice_base s).
    { intros x Jx Q. unfold sessions_of in D. rewrite Ep, El in D.
      assert (Pm : Permutation (cur r ++ l1 ++ s :: l2) (s :: cur r ++ l1 ++ l2)) by (rewrite app_assoc; eapply Permutation_trans; [apply Permutation_sym, Permutation_middle|rewrite <- app_assoc; reflexivity]).
      apply (Permutation_NoDup (Permutation_map ss_alice_base Pm)) in D. cbn [map] in D. inversion D as [|? ? Dx _]; subst. apply Dx. rewrite <- Q. apply in_map. exact Jx. }
    assert (Inn : forall x, In x (cur r ++ l1 ++ l2) -> In x (sessions_of r)).
    { intros x Jx. unfold sessions_of. rewrite Ep, El. rewrite !in_app_iff in *. cbn [In]. tauto. }
    assert (Ft : exists j0, j0 <= List.length (cur r) /\ decrypt_record C rnd r m = (do l <- rc_previous_states r;
      match try_previous C (skipn (32 * j0) rnd) 0 l m None with
      | (Ok (Some (i, s, pt)), _) => Ok (pt, rc_promote_old r i s)
      | (Ok None, _) => Err (EOther "decryption failed: invalid message")
      | (Err e, _) => Err e
      | (Panic, _) => Panic
      end)).
    { unfold decrypt_record. unfold cur. destruct (rc_current r) as [c|] eqn:Ec; [|exists 0; split; [cbn; lia|reflexivity]].
      destruct (Os c rnd) as (e & Ee & Ne); [apply Inn; unfold cur; rewrite Ec; left; reflexivity|apply Nb; unfold cur; rewrite Ec; left; reflexivity|].
      destruct (decrypt_session C rnd c m) as [o rest] eqn:Dc. cbn [fst] in Ee. subst o.
      destruct (attempt_rest _ _ _ _ _ _ Dc) as [->| ->]; [exists 0|exists 1]; (split; [cbn; lia|]); change (skipn (32 * 0) rnd) with rnd; change (32 * 1) with 32; destruct e; first [contradiction|reflexivity]. }
    destruct Ft as (j0 & Lj & ->). rewrite Ep. cbn [bind]. rewrite El.
    destruct (attempts_total C m (l1 ++ s :: l2) (skipn (32 * j0) rnd)) as (os & rest & A).
    assert (En : nth_error (l1 ++ s :: l2) (List.length l1) = Some s) by (rewrite nth_error_app2, Nat.sub_diag by lia; reflexivity).
    destruct (attempts_nth_rnd _ _ _ _ _ _ A rnd j0 _ _ eq_refl En) as (o & j & r2 & Li & Eo & Dj).
    assert (Lj' : j < List.length (sessions_of r)) by lia.
    destruct (As j Lj') as (s' & rest' & E). rewrite Dj in E. injection E as -> ->.
    assert (Ws : wf_state s) by (rewrite Forall_forall in F; auto).
    destruct (decrypt_session_inv _ _ _ _ _ _ _ H Ws Wm Dj) as (Ws' & _).
    exists j, s', rest', (rc_promote_old r (List.length l1) s'). split; [exact Lj'|]. split; [exact Dj|].
    split; [|rewrite El in F, Eb; apply (sessions_old r s s' l1 l2 W Ws' F Eb)].
    pose proof (try_previous_loop _ _ _ _ _ _ A 0 None) as T.
    rewrite (loop_result_only os 0 None (List.length l1) s' pt Eo) in T.
    + destruct (try_previous C (skipn (32 * j0) rnd) 0 (l1 ++ s :: l2) m None) as [y q]. cbn [fst] in T. rewrite T. reflexivity.
    + intros j' o Ej Nj. assert (Lj2 : j' < List.length (l1 ++ s :: l2)) by (rewrite <- (attempts_length _ _ _ _ _ _ A); apply nth_error_Some; congruence).
      destruct (nth_error (l1 ++ s :: l2) j') as [x|] eqn:Ex; [|apply nth_error_None in Ex; lia].
      destruct (attempts_nth _ _ _ _ _ _ _ _ A Ex) as (o' & q1 & q2 & Eo' & D'). rewrite Ej in Eo'. injection Eo' as <-.
      assert (Jx : In x (cur r ++ l1 ++ l2)).
      { apply in_or_app. right. apply in_or_app. destruct (Nat.lt_ge_cases j' (List.length l1)).
        - rewrite nth_error_app1 in Ex by lia. left. exact (nth_error_In _ _ Ex).
        - rewrite nth_error_app2 in Ex by lia. destruct (j' - List.length l1) as [|q] eqn:Eq; [lia|]. cbn [nth_error] in Ex. right. exact (nth_error_In _ _ Ex). }
      destruct (Os x q1 (Inn x Jx) (Nb x Jx)) as (e & E1 & E2). rewrite D' in E1. cbn [fst] in E1. exists e. auto.
Qed.
End Reads.
