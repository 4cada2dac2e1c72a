(** C97: group messages on a hostile network. *)
From Verif Require Import M_Base M_Crypto M_Aes M_Curve M_Uuid M_Message M_Ratchet M_State M_Store M_Session M_Group
  S_Crypto S_Message S_Session S_Group S_GroupMsg S_Size S_Atomic S_Transit S_Team S_Conv S_Many S_Net S_Enrolled S_GroupAttack P_GroupAttack P_GroupSiege K_Toy K_World K_Conv K_Group K_Net K_Enrolled K_GroupAttack.
Local Open Scope nat_scope.

(** Whatever bytes a member's device reads as a message of the channel, they are a copy of one the sender sent after the
    invitation, the plaintext is the one sent, and it had not been read before; or they forge the sender's signature. *)
Theorem c97_heard : forall C dm k sent a l w x fs pt w', CryptoOk C -> sent_after C dm k sent -> member C a (channel_of dm) l w ->
  run (greceive_bytes C a x) fs w = (Ok pt, w') -> exists m, parse_senderkey x = Ok m /\
  (on_channel (channel_of dm) m -> group_forgery C (channel_of dm) sent x \/ exists y, In (pt, y) sent /\ copy_of y x /\ ~ accepted l (sm_iter y)).
Proof. intros C dm k sent a l w x fs pt w' H. exact (group_heard C H dm k sent a l w x fs pt w'). Qed.
Print Assumptions c97_heard.
(** Any bytes, any failing store calls, any crash, on copying stores and on the repository's: the member's state is as before, or as if
    one message sent and not yet read had arrived. *)
Theorem c97_any_bytes : forall C dm k sent a l w x w', CryptoOk C -> sent_after C dm k sent -> member C a (channel_of dm) l w -> leaves (greceive_bytes C a x) w w' ->
  ~ group_forgery C (channel_of dm) sent x ->
  member C a (channel_of dm) l w' \/ exists pt y, In (pt, y) sent /\ copy_of y x /\ ~ accepted l (sm_iter y) /\ member C a (channel_of dm) (l ++ [(sm_iter y, pt, Ok pt)]) w'.
Proof. intros C dm k sent a l w x w' H. exact (group_any_bytes C H dm k sent a l w x w'). Qed.
Print Assumptions c97_any_bytes.
(** After any number of these, each of up to 2000 messages still gives its plaintext, unless a copy of it was among them. *)
Theorem c97_siege : forall C dm k sent a w xs w' pt y, CryptoOk C -> sent_after C dm k sent -> k <= 2000 -> member C a (channel_of dm) [] w -> siege C a w xs w' ->
  (forall x, In x xs -> ~ group_forgery C (channel_of dm) sent x) -> In (pt, y) sent ->
  fst (run0 (greceive_bytes C a (sm_raw y)) w') = Ok pt \/ fst (run0 (greceive_bytes C a (sm_raw y)) w') = Err EDuplicate /\ exists x, In x xs /\ copy_of y x.
Proof. intros C dm k sent a w xs w' pt y H. exact (group_siege C H dm k sent a w xs w' pt y). Qed.
Print Assumptions c97_siege.
(** For a member in a network (C92), the network stays a network as well. *)
Theorem c97_network : forall C dm k sent d e l dev es x w', CryptoOk C -> sent_after C dm k sent -> enrolled C d e (channel_of dm) l dev es -> leaves (greceive_bytes C e x) (dev d) w' ->
  ~ group_forgery C (channel_of dm) sent x ->
  (exists dev0, (forall z, dev0 z = dev_set dev d w' z) /\ net C dev0 es) /\
  (member C e (channel_of dm) l w' \/ exists pt y, In (pt, y) sent /\ copy_of y x /\ ~ accepted l (sm_iter y) /\ member C e (channel_of dm) (l ++ [(sm_iter y, pt, Ok pt)]) w').
Proof. intros C dm k sent d e l dev es x w' H. exact (enrolled_any_bytes C H dm k sent d e l dev es x w'). Qed.
Print Assumptions c97_network.

Example c97_case : forall sh : bool, exists dm sent wb w' x1 x2 x3 x4,
  sent_after toy dm 4 sent /\ sent = [(str "one", x1); ([], x2); (str "three", x3); (str "four", x4)] /\ member toy gx_addr (channel_of dm) [] wb /\ w_shared wb = sh /\
  siege toy gx_addr wb [[Byte.x00]; sm_raw x3; sm_raw x3; sm_raw x1] w' /\
  forall x, In x [[Byte.x00]; sm_raw x3; sm_raw x3; sm_raw x1] -> ~ group_forgery toy (channel_of dm) sent x.
Proof. exact group_attack_case. Qed.
Example c97_network_case : forall sh : bool, exists dm sent x1 x2 dev es w', sent_after toy dm 2 sent /\ sent = [(str "one", x1); (str "two", x2)] /\
  enrolled toy at_b at_a (channel_of dm) [] dev es /\ leaves (greceive_bytes toy at_a (sm_raw x2)) (dev at_b) w' /\ ~ group_forgery toy (channel_of dm) sent (sm_raw x2).
Proof. exact group_siege_case. Qed.
