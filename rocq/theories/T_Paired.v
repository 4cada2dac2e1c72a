(** C83: sessions made by InitializeAliceSessionRecord and InitializeBobSessionRecord. *)
From Verif Require Import M_Base M_Crypto M_Aes M_Curve M_Message M_Ratchet M_State M_Store M_Session M_Records
  S_Crypto S_Send S_X3dh S_Conv S_History S_Paired S_PairedView P_Paired P_PairedView K_Toy K_Conv K_Paired.
Local Open Scope nat_scope.

(** With matching parameters both calls succeed; the records show the two identities, and
    the initiator's receiving chain for the responder's ratchet key is the responder's
    sending chain. *)
Theorem c83_setup : forall C d h rnd, CryptoOk C -> in_hand C d h -> 32 <= List.length rnd ->
  exists ra rb ck, alice_side C rnd d h = (Ok ra, skipn 32 rnd) /\ bob_side C d h = Ok rb /\
    shows ra (own_identity C d true) (own_identity C d false) 0 /\ shows rb (own_identity C d false) (own_identity C d true) 0 /\
    rec_receiver_key ra (mont_pub C (d_rb d)) = Ok (Some ck) /\ rec_sender_key rb = Ok ck.
Proof. intros C d h rnd H. exact (setup_agrees C H d h rnd). Qed.
Print Assumptions c83_setup.
(** With any parameters: neither panics, and each succeeds exactly if its key agreements do
    and, for the initiator, there are 32 random bytes. *)
Theorem c83_setup_exact : forall C, CryptoOk C ->
  (forall rnd ident base ti ts ot tr,
    ((exists r rest, alice_record C rnd ident base ti ts ot tr = (Ok r, rest)) <->
     32 <= List.length rnd /\ agrees C ident ts /\ agrees C base ti /\ agrees C base ts /\ opt_agrees C base ot /\
     exists new, gen_keypair C rnd = (Ok new, skipn 32 rnd) /\ agrees C new tr) /\
    fst (alice_record C rnd ident base ti ts ot tr) <> Panic) /\
  (forall ident signed onetime rp ti tb,
    ((exists r, bob_record C ident (Some signed) onetime (Some rp) ti tb = Ok r) <->
     agrees C signed ti /\ agrees C ident tb /\ agrees C signed tb /\ match onetime with Some o => agrees C o tb | None => True end) /\
    bob_record C ident (Some signed) onetime (Some rp) ti tb <> Panic).
Proof. intros C H. exact (conj (alice_succeeds C H) (bob_succeeds C H)). Qed.
Print Assumptions c83_setup_exact.

(** After any exchange, whoever began it, a receivable message is delivered. *)
Theorem c83_delivered : forall C d at_ dev par keys notes side ep n pt c rnd, CryptoOk C ->
  paired C at_ d dev par keys notes -> In (mkNote (negb side) ep n pt c) notes ->
  receivable (par side) ep n -> fresh C keys (par side) ep rnd ->
  w_policy (dev side) (at_ side) (w_ident (dev side) (at_ side)) (own_identity C d (negb side)) Receiving = true ->
  exists w', run0 (decrypt_message C (at_ side) rnd c) (dev side) = (Ok pt, w').
Proof. intros C d at_ dev par keys notes side ep n pt c rnd H. exact (paired_delivered C H d at_ dev par keys notes side ep n pt c rnd). Qed.
Print Assumptions c83_delivered.
(** Whatever the stores do, an answer without error is the plaintext that was sent. *)
Theorem c83_never_wrong : forall C d at_ dev par keys notes side ep n pt c rnd fs pt' w', CryptoOk C ->
  paired C at_ d dev par keys notes -> In (mkNote (negb side) ep n pt c) notes ->
  receivable (par side) ep n -> fresh C keys (par side) ep rnd ->
  run (decrypt_message C (at_ side) rnd c) fs (dev side) = (Ok pt', w') -> pt' = pt.
Proof. intros C d at_ dev par keys notes side ep n pt c rnd fs pt' w' H. exact (paired_answered C H d at_ dev par keys notes side ep n pt c rnd fs pt' w'). Qed.
Print Assumptions c83_never_wrong.
(** Both can go on sending, the responder from the start, and never a pre-key message. *)
Theorem c83_sendable : forall C d at_ dev par keys notes side pt, CryptoOk C ->
  paired C at_ d dev par keys notes -> (p_sent (par side) + 1 < 4294967296)%N ->
  w_policy (dev side) (at_ side) (w_ident (dev side) (at_ side)) (own_identity C d (negb side)) Sending = true ->
  exists m w', run0 (encrypt_message C (at_ side) pt) (dev side) = (Ok (CSignal m), w').
Proof. intros C d at_ dev par keys notes side pt H. exact (paired_sendable C H d at_ dev par keys notes side pt). Qed.
Print Assumptions c83_sendable.
(** The accessors keep showing version 3, the two identities and the number of messages sent. *)
Theorem c83_shows : forall C d at_ dev par keys notes side, CryptoOk C -> paired C at_ d dev par keys notes ->
  exists r, w_sess (dev side) (at_ side) = Some r /\
    shows r (own_identity C d side) (own_identity C d (negb side)) (p_sent (par side)).
Proof. intros C d at_ dev par keys notes side H. exact (paired_shows C H d at_ dev par keys notes side). Qed.
Print Assumptions c83_shows.
(** On any record, of whatever contents, no accessor panics; without a session each gives the same error. *)
Theorem c83_accessors : forall r,
  (rc_current r = None ->
     rec_version r = Err ENoCurrentSession /\ rec_local r = Err ENoCurrentSession /\ rec_remote r = Err ENoCurrentSession /\
     (forall u, rec_receiver_key r u = Err ENoCurrentSession) /\ rec_sender_key r = Err ENoCurrentSession) /\
  rec_version r <> Panic /\ rec_local r <> Panic /\ rec_remote r <> Panic /\ (forall u, rec_receiver_key r u <> Panic) /\ rec_sender_key r <> Panic.
Proof. exact accessors. Qed.
Print Assumptions c83_accessors.
Example c83_empty : rc_current (new_record None) = None.
Proof. reflexivity. Qed.
(** The responder sends two messages, of which the initiator has the second; the initiator
    answers; the responder sends again. *)
Example c83_case : exists dev par keys c1 c2 c3 c4,
  paired toy conv_at deal dev par keys
    [mkNote false 2 0 (str "four") c4; mkNote true 1 0 (str "three") c3; mkNote false 0 1 (str "two") c2; mkNote false 0 0 (str "one") c1] /\
  par true = mkParty 1 1 [mkView 0 1 [0%N]] /\ par false = mkParty 2 1 [mkView 1 0 []] /\ open_policy dev.
Proof. exact paired_talk. Qed.
Example c83_hands : in_hand toy deal deal_hands.
Proof. exact deal_held. Qed.
