(** A network with an attacker on every line: C96. *)
From Verif Require Import M_Base M_Crypto M_Aes M_Curve M_Message M_Ratchet M_State M_Store M_Session M_Group
  S_Crypto S_Message S_Shape S_Ratchet S_Session S_Api S_Send S_Group S_X3dh S_Receive S_Conv S_History S_Isolation S_Atomic S_Size S_Transit S_Speak S_Many S_Net.

(** Cable [c] is between [d] and [e]; [e] sent [y] on it, to [d]. *)
Definition joins (c : cable) (d e : addr) : Prop := In d [cb_from c; cb_to c] /\ In e [cb_from c; cb_to c].
Definition sent_on (c : cable) (d e : addr) (y : note) : Prop :=
  joins c d e /\ In y (ln_notes (cb_link c)) /\ nt_from y = negb (cb_role c d).
(** No text of the network is longer than 2^62 bytes. *)
Definition sized (es : list cable) : Prop := forall c y, In c es -> In y (ln_notes (cb_link c)) -> (size (nt_text y) < 2 ^ 62)%N.
(** [m] is a forgery against the session of one of the cables between [d] and [e], as [d] has it. *)
Definition net_forgery (C : Crypto) (dev : addr -> world) (es : list cable) (d e : addr) (m : signal) : Prop :=
  exists c r s, In c es /\ joins c d e /\ has_cable c d /\ w_sess (dev d) e = Some r /\ state_in s r /\ ss_alice_base s = Byte.x05 :: ln_base (cb_link c) /\
    forgery C s (ln_par (cb_link c) (cb_role c d)) (kp_pub (w_pair (dev e))) (kp_pub (w_pair (dev d))) (sent_on c d e) m.
(** The random bytes of a call of [d] about [e] are enough for all their sessions, and give new keys. *)
Definition new_keys (C : Crypto) (es : list cable) (d e : addr) (rnd : bytes) : Prop :=
  forall j, j < List.length (links_between d e es) ->
    32 * S j <= List.length rnd /\ ~ In (mont_pub C (firstn 32 (skipn (32 * j) rnd))) (all_keys (links_between d e es)).
