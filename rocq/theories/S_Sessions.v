(** Sessions do not get lost: C59. *)
From Verif Require Import M_Base M_Crypto M_Curve M_Uuid M_Message M_Ratchet M_State M_Store M_Session M_Group
  S_Message S_Session S_Api.

(** [s'] is the session of [s], perhaps further on. *)
Definition later_state (s s' : state) : Prop :=
  ss_version s' = ss_version s /\ ss_local s' = ss_local s /\ ss_remote s' = ss_remote s /\ ss_alice_base s' = ss_alice_base s.
Definition still_in (s : state) (r' : record) : Prop := exists s', state_in s' r' /\ later_state s s'.
(** [s] is the oldest archived session of [r] and the archive is full. *)
Definition oldest_of_full (s : state) (r : record) : Prop :=
  List.length (rc_previous r) = 40 /\ exists b l, rc_previous r = b :: l /\ state_parse b = Ok s.
(** Calls that may set up a new session. *)
Definition opens_session (c : call) : Prop :=
  match c with CBundle _ _ _ => True | CDecrypt _ _ (CPreKey _) => True | _ => False end.
(** All sessions of [r] are in [r'], except that the call [c] may have pushed the oldest one out
    of a full archive by archiving the current one. *)
Definition sessions_kept (c : call) (r r' : record) : Prop :=
  (forall s, rc_current r = Some s -> still_in s r') /\
  forall s, state_in s r -> still_in s r' \/ opens_session c /\ oldest_of_full s r.
