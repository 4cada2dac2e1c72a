(** C88: thefts in a network. *)
From Verif Require Import M_Base M_Crypto M_Aes M_Curve M_Message M_Ratchet M_State M_Store M_Session
  S_Crypto S_Message S_Send S_Session S_X3dh S_Receive S_Conv S_History S_Secrecy S_Thefts S_Many S_Net S_Raid P_Raid K_Toy K_World K_Conv K_Net K_Raid.
Local Open Scope nat_scope.

(** Any devices of a network are copied at any times, and any set [X] of private keys leaks as well.
    Every session state in any record of the stolen devices, current or archived, is one of the network's and
    consists of exactly the listed terms, as does every message; and whatever is combined, a plaintext of
    a session can be derived exactly if what was stolen of that session itself and the known
    private keys open it (C79). *)
Theorem c88_exact : forall C dev es L, CryptoOk C -> raid C dev es L -> NoDup (map cb_base es) ->
  exists pr tx,
    (forall c, In c es -> names C (fun a => pr (key_of c a)) (cb_bundle c) (cb_base c) (fun part => dev (cb_end c part)) (ln_keys (cb_link c))) /\
    (forall r a rec s, In r L -> w_sess (rd_device r) a = Some rec -> state_in s rec ->
       exists c part, In c (rd_cables r) /\ rd_who r = cb_end c part /\ a = cb_end c (negb part) /\ ss_alice_base s = Byte.x05 :: cb_base c /\
         session_secrets s = map (fun t => nvalue C pr tx (named c t)) (held (cb_one c) (ln_par (cb_link c) part))) /\
    (forall c x m, In c es -> In x (ln_notes (cb_link c)) -> inner (nt_cipher x) = Some m -> tx (cb_base c) (nt_epoch x) (nt_counter x) = nt_text x /\
       sg_body m = nvalue C pr tx (named c (body_of (cb_one c) (nt_epoch x) (nt_counter x))) /\
       exists ser text, sg_raw m = ser ++ nvalue C pr tx (named c (tag_of (cb_one c) (nt_epoch x) (nt_counter x) text))) /\
    (forall X c x, In c es -> In x (ln_notes (cb_link c)) -> (taken C dev X L es c x <-> laid_open C dev X L c x)).
Proof. intros C dev es L H. exact (raid_exact C H dev es L). Qed.
Print Assumptions c88_exact.
(** Bob's device is copied before it has received Alice's message: the thief can read it with Bob's
    signed pre-key, but not Bob's answer. *)
Example c88_exact_case : forall sh : bool, exists dev sig m u m2 L, let c := mkCable at_a at_b (link_sent (link_got (cb_link (alice_cable sig m)) false 1 0 u) false (str "hi") m2) in
  let es := [c; carol_cable sig] in let x := mkNote true 1 0 (str "hello") m in let y := mkNote false 2 0 (str "hi") m2 in
  raid toy dev es L /\ NoDup (map cb_base es) /\ In c es /\ In x (ln_notes (cb_link c)) /\ In y (ln_notes (cb_link c)) /\
  (forall p, In p (robbed L (cb_base c)) -> p_epoch p <= 0) /\ taken toy dev nothing L es c x /\ ~ taken toy dev nothing L es c y.
Proof. exact raid_before. Qed.
(** A session is safe if neither of its devices was copied while it lasted and its base key and the responder's
    signed pre-key are unknown: all other devices may be stolen, and its own before it was begun. *)
Theorem c88_untouched : forall C dev es L (X : nkey -> Prop) c x, CryptoOk C -> raid C dev es L -> NoDup (map cb_base es) -> In c es -> In x (ln_notes (cb_link c)) ->
  (forall r c', In r L -> In c' (rd_cables r) -> cb_base c' = cb_base c -> rd_who r <> cb_from c /\ rd_who r <> cb_to c) ->
  ~ X (NBase (cb_base c)) -> ~ known C dev X L (key_of c (ARatchet 0)) -> ~ taken C dev X L es c x.
Proof. intros C dev es L X c x H. exact (raid_untouched C H dev es L X c x). Qed.
Print Assumptions c88_untouched.
(** Alice's device is copied at the beginning and Carol's at the end: the thieves have both identity
    keys and Carol's session with Bob. Alice's message to Bob is safe. *)
Example c88_untouched_case : forall sh : bool, exists dev sig m L, let c := alice_cable sig m in let es := [c; carol_cable sig] in let x := mkNote true 1 0 (str "hello") m in
  raid toy dev es L /\ NoDup (map cb_base es) /\ In c es /\ In x (ln_notes (cb_link c)) /\ List.length L = 2 /\
  known toy dev nothing L (NIdent at_a) /\ known toy dev nothing L (NIdent at_c) /\ robbed L (cb_base (carol_cable sig)) <> [] /\
  (forall r c', In r L -> In c' (rd_cables r) -> cb_base c' = cb_base c -> rd_who r <> cb_from c /\ rd_who r <> cb_to c) /\
  ~ known toy dev nothing L (key_of c (ARatchet 0)) /\ ~ taken toy dev nothing L es c x.
Proof. exact raid_case. Qed.
(** Two epochs after the last copy of its devices a session is safe again, whatever else is known, all
    identity keys and pre-keys included ([c88_exact_case] with [last] = 0). *)
Theorem c88_healed : forall C dev es L (X : nkey -> Prop) c x last, CryptoOk C -> raid C dev es L -> NoDup (map cb_base es) -> In c es -> In x (ln_notes (cb_link c)) ->
  (forall p, In p (robbed L (cb_base c)) -> p_epoch p <= last) -> (forall j, X (NRatchet (cb_base c) j) -> j <= last) ->
  last + 2 <= nt_epoch x -> ~ taken C dev X L es c x.
Proof. intros C dev es L X c x last H. exact (raid_healed C H dev es L X c x last). Qed.
Print Assumptions c88_healed.
