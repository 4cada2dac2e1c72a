(** How large messages are: C60. *)
From Verif Require Import M_Base M_Crypto M_Curve M_Message M_Session M_Group S_Message S_Session.
Local Open Scope N_scope.

(** Bytes of a base-128 number: one for every seven bits. *)
Definition vsize (n : N) : N := 1 + N.log2 n / 7.
(** A length-prefixed field of [n] bytes and a number field, with their one-byte tags. *)
Definition len_field (n : N) : N := 1 + vsize n + n.
Definition num_field (n : N) : N := 1 + vsize n.
(** Bytes of the encryption of [n] bytes of plaintext: the next multiple of 16. *)
Definition padded_size (n : N) : N := 16 * (n / 16 + 1).
Definition size (b : bytes) : N := N.of_nat (List.length b).

(** Version byte, ratchet key, counter, previous counter, body, MAC. *)
Definition whisper_size (counter prev len : N) : N :=
  1 + len_field 33 + num_field counter + num_field prev + len_field (padded_size len) + 8.
(** Version byte, one-time id, base key, identity key, whisper message, registration id, signed id. *)
Definition prekey_size (id : option N) (reg signed len : N) : N :=
  1 + match id with Some i => num_field i | None => 0 end + len_field 33 + len_field 33 + len_field len + num_field reg + num_field signed.
(** Version byte, distribution id as text, chain, iteration, body, signature. *)
Definition group_size (chain iter len : N) : N :=
  1 + len_field 36 + num_field chain + num_field iter + len_field (padded_size len) + 64.

(** The same message as far as can be seen without keys: all but the encrypted body and the
    MAC, which have the same sizes. *)
Definition same_outside (m1 m2 : signal) : Prop :=
  sg_version m1 = sg_version m2 /\ sg_ratchet m1 = sg_ratchet m2 /\ sg_prev m1 = sg_prev m2 /\ sg_counter m1 = sg_counter m2 /\
  List.length (sg_body m1) = List.length (sg_body m2) /\ List.length (sg_raw m1) = List.length (sg_raw m2).
Definition looks_same (c1 c2 : ciphertext) : Prop :=
  match c1, c2 with
  | CSignal m1, CSignal m2 => same_outside m1 m2
  | CPreKey m1, CPreKey m2 =>
      pm_version m1 = pm_version m2 /\ pm_reg m1 = pm_reg m2 /\ pm_prekey_id m1 = pm_prekey_id m2 /\ pm_signed_id m1 = pm_signed_id m2 /\
      pm_base m1 = pm_base m2 /\ pm_identity m1 = pm_identity m2 /\ List.length (pm_raw m1) = List.length (pm_raw m2) /\
      same_outside (pm_message m1) (pm_message m2)
  | _, _ => False
  end.
Definition looks_same_group (m1 m2 : senderkeymsg) : Prop :=
  sm_version m1 = sm_version m2 /\ sm_dist m1 = sm_dist m2 /\ sm_chain m1 = sm_chain m2 /\ sm_iter m1 = sm_iter m2 /\
  List.length (sm_body m1) = List.length (sm_body m2) /\ List.length (sm_raw m1) = List.length (sm_raw m2).
