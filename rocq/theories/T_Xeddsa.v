(** C14, C87: what is signed with, and what a message calls itself. *)
From Verif Require Import M_Base M_Crypto M_Curve M_Message M_Text S_Crypto S_Xeddsa K_Toy R_Real P_Real P_Xeddsa.

(** C14. A signature is the XEdDSA signature of the joined message parts for the first 64
    random bytes. *)
Theorem c14_xeddsa : forall C key k rnd parts, CryptoOk C -> new_private_key C key = Ok k ->
  64 <= List.length rnd ->
  exists sig, sign C k rnd parts = (Ok sig, skipn 64 rnd) /\
    xed_signature C key (List.concat parts) (firstn 64 rnd) sig.
Proof. exact sign_xeddsa. Qed.
Print Assumptions c14_xeddsa.
Example c14_xeddsa_case : CryptoOk real /\ exists k, new_private_key real (repeat Byte.x07 32) = Ok k.
Proof. split; [exact real_ok|]. eexists. unfold new_private_key. reflexivity. Qed.

(** C87. Each kind of message has the type that prints as its name. *)
Theorem c87_message_types : forall c, type_string (Z.of_N (ct_type c)) =
  match c with CSignal _ => str "WhisperType" | CPreKey _ => str "PreKeyType"
             | CSenderKey _ => str "SenderKeyType" | CPlaintext _ => str "PlaintextType" end.
Proof. exact message_types. Qed.
Print Assumptions c87_message_types.
Example c87_message_types_case : ct_type (CPlaintext (str "x")) = 8%N.
Proof. reflexivity. Qed.
