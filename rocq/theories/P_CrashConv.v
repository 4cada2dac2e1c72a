(** Conversations survive failures and crashes of any call (C63, C64). *)
From Verif Require Import M_Base M_Crypto M_Aes M_Curve M_Proto M_Message M_Ratchet M_State M_Store M_Session M_Group
  S_Crypto S_Message S_State S_Shape S_Ratchet S_Session S_Aes S_Api S_Send S_Group S_Curve S_X3dh S_Receive S_Conv S_History S_Atomic
  P_Base P_Proto P_Curve P_State P_Shape P_Ratchet P_Message P_Aes P_Chain P_Decrypt P_Receive P_Encrypt P_Record P_Prog P_Api
  P_Init P_Send P_Conv P_X3dh P_Conv2 P_Bundle P_DecApi P_DecTop P_DecMore P_Replay P_Trust P_History P_Atomic.
From Coq Require Import ZifyBool ZifyNat ZifyN.
Local Open Scope nat_scope.

Lemma crash_shape : forall {A} (p : prog A), pall shape_ok shape_ans p -> forall n fs w, wf_device w -> wf_device (crash n p fs w).
Proof.
  intros A p. induction p as [r|X o k IH]; intros P n fs w W; [rewrite crash_ret; exact W|].
  destruct n as [|n]; [exact W|]. cbn [crash pstep].
  destruct P as [Po Pk]. destruct (shape_exec X o (hd_fault fs) w W Po) as [W' S'].
  destruct (exec_f o (hd_fault fs) w) as [x w']. cbn [fst snd] in *. apply IH; auto.
Qed.
Lemma crash_pair : forall {A} (p : prog A) n fs w, w_pair (crash n p fs w) = w_pair w.
Proof.
  intros A p. induction p as [r|X o k IH]; intros n fs w; [rewrite crash_ret; reflexivity|].
  destruct n as [|n]; [reflexivity|]. cbn [crash pstep].
  assert (E : w_pair (snd (exec_f o (hd_fault fs) w)) = w_pair w).
  { unfold exec_f. destruct (fallible o), (hd_fault fs); destruct o; cbn; try reflexivity; destruct (w_shared w); reflexivity. }
  destruct (exec_f o (hd_fault fs) w) as [x w']. cbn [snd] in *. rewrite IH. exact E.
Qed.
Lemma leaves_shape : forall {A} (p : prog A) w w', pall shape_ok shape_ans p -> wf_device w -> leaves p w w' -> wf_device w' /\ w_pair w' = w_pair w.
Proof.
  intros A p w w' P W (fs & [-> |(n & ->)]).
  - split; [apply run_shape; assumption|apply run_pair].
  - split; [apply crash_shape; assumption|apply crash_pair].
Qed.
Lemma leaves_atomic : forall C c w w', w_shared w = false -> let '@Thread A p := start C c in
  leaves p w w' -> untouched w w' \/ is_ok (fst (run0 p w)) /\ same_records (snd (run0 p w)) w'.
Proof.
  intros C c w w' Sh. pose proof (fun fs => call_atomic C c fs w Sh) as Q. destruct (start C c) as [A p].
  intros (fs & [-> |(n & ->)]); [apply Q|apply Q].
Qed.

Section CrashConv.
Variable C : Crypto.
Hypothesis H : CryptoOk C.
Variable b : bundle.
Variable at_ : bool -> addr.

Lemma upd_twice : forall {A} (f : bool -> A) side x y z, upd (upd f side x) side y z = upd f side y z.
Proof. intros. unfold upd. destruct (Bool.eqb z side); reflexivity. Qed.
Lemma upd_same : forall {A} (f : bool -> A) side x, upd f side x side = x.
Proof. intros. unfold upd. rewrite Bool.eqb_reflx. reflexivity. Qed.

Lemma send_cut : forall base dev par keys notes side pt w',
  history C at_ b base dev par keys notes -> w_shared (dev side) = false ->
  (side = true \/ p_epoch (par false) <> 0) -> (p_sent (par side) + 1 < 4294967296)%N ->
  leaves (encrypt_message C (at_ side) pt) (dev side) w' ->
  exists dev', (forall y, dev' y = upd dev side w' y) /\
    (history C at_ b base dev' par keys notes \/
     exists c, history C at_ b base dev' (upd par side (sent_one (par side))) keys
       (mkNote side (p_epoch (par side)) (p_sent (par side)) pt c :: notes)).
Proof using H.
  intros base dev par keys notes side pt w' Hy Sh Sd G Lv.
  assert (Wd : wf_device (dev side)).
  { destruct (history_in_step C H b at_ _ _ _ _ _ Hy) as (k & ks & St). apply St. }
  destruct (leaves_shape _ _ _ (encrypt_message_shape C H (at_ side) pt) Wd Lv) as [Wd' Wp'].
  destruct (leaves_atomic C (CEncrypt (at_ side) pt) (dev side) w' Sh Lv) as [U|[(c & Ok1) Sr]].
  - exists (upd dev side w'). split; [reflexivity|]. left. apply h_other; [exact Hy|]. split; [exact Wd'|]. split; [exact Wp'|].
    left. split; [exact Sd|apply session_current, U].
  - destruct (run0 (encrypt_message C (at_ side) pt) (dev side)) as [x w1] eqn:E. cbn [fst snd] in *. subst x.
    exists (upd (upd dev side w1) side w'). split; [intro y; apply upd_twice|]. right. exists c.
    assert (P1 : w_pair w1 = w_pair (dev side)).
    { pose proof (run_pair (encrypt_message C (at_ side) pt) [] (dev side)) as Q. unfold run0 in E. rewrite E in Q. exact Q. }
    apply h_other; [eapply h_send; eauto|]. rewrite upd_same. split; [exact Wd'|]. split; [congruence|]. left. split; [|apply session_current, Sr].
    destruct Sd as [Sd|Sd]; [left; exact Sd|right]. unfold upd. destruct (Bool.eqb false side) eqn:Q; [|exact Sd]. 
    apply Bool.eqb_prop in Q. subst side. exact Sd.
Qed.

Lemma receive_cut : forall base dev par keys notes side ep n pt c rnd w',
  history C at_ b base dev par keys notes -> w_shared (dev side) = false ->
  In (mkNote (negb side) ep n pt c) notes -> receivable (par side) ep n -> fresh C keys (par side) ep rnd ->
  leaves (decrypt_message C (at_ side) rnd c) (dev side) w' ->
  exists dev', (forall y, dev' y = upd dev side w' y) /\
    (history C at_ b base dev' par keys notes \/
     history C at_ b base dev' (upd par side (party_after (par side) ep n)) (keys_after C keys (par side) ep rnd) notes).
Proof using H.
  intros base dev par keys notes side ep n pt c rnd w' Hy Sh I0 Rv Fr Lv.
  destruct (history_in_step C H b at_ _ _ _ _ _ Hy) as (k & ks & St).
  assert (Wd : wf_device (dev side)) by apply St.
  assert (Wc : wf_ciphertext c).
  { destruct St as (So & _ & _ & _ & _ & _ & _ & _ & _ & _ & _ & _ & Nt). rewrite Forall_forall in Nt.
    destruct (Nt _ I0) as (_ & G & m & Wh & F). destruct (note_wf C H b k ks par _ m So Wh G) as [_ Wc]. exact (Wc _ _ _ F). }
  assert (Ps : pall shape_ok shape_ans (decrypt_message C (at_ side) rnd c)) by (exact (calls_shape C H (CDecrypt (at_ side) rnd c) Wc)).
  destruct (leaves_shape _ _ _ Ps Wd Lv) as [Wd' Wp'].
  destruct (leaves_atomic C (CDecrypt (at_ side) rnd c) (dev side) w' Sh Lv) as [U|[(pt' & Ok1) Sr]].
  - exists (upd dev side w'). split; [reflexivity|]. left. apply h_other; [exact Hy|]. split; [exact Wd'|]. split; [exact Wp'|].
    destruct U as ((U1 & _) & U2 & U3).
    destruct side; [left; split; [left; reflexivity|apply session_current, U1]|].
    destruct (Nat.eq_dec (p_epoch (par false)) 0) as [Z|Z]; [right|left; split; [right; exact Z|apply session_current, U1]].
    split; [reflexivity|]. split; [exact Z|]. split; [|split; [apply U3|intros id _; apply U2]].
    destruct St as (_ & _ & _ & _ & _ & _ & _ & _ & _ & _ & _ & Nb & _). destruct (Nb Z) as (_ & _ & Un).
    intros r s E. rewrite U1 in E. exact (Un r s E).
  - destruct (run0 (decrypt_message C (at_ side) rnd c) (dev side)) as [x w1] eqn:E. cbn [fst snd] in *. subst x.
    exists (upd (upd dev side w1) side w'). split; [intro y; apply upd_twice|]. right.
    assert (P1 : w_pair w1 = w_pair (dev side)).
    { pose proof (run_pair (decrypt_message C (at_ side) rnd c) [] (dev side)) as Q. unfold run0 in E. rewrite E in Q. exact Q. }
    pose proof (receive_step C H b at_ k ks base dev par keys notes side ep n pt c rnd St I0 Rv Fr) as (_ & _ & R).
    destruct (R _ _ _ E) as (_ & _ & _ & Nz).
    apply h_other; [eapply h_receive; eauto|]. rewrite upd_same. split; [exact Wd'|]. split; [congruence|]. left. split; [right; exact Nz|apply session_current, Sr].
Qed.
End CrashConv.
