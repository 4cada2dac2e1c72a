(** C89: group messages are as safe as the conversations that carried their sender key. *)
From Verif Require Import M_Base M_Crypto M_Aes M_Curve M_Uuid M_Message M_Ratchet M_State M_Store M_Session M_Group
  S_Crypto S_Message S_Session S_Group S_GroupMsg S_GroupSecrecy S_X3dh S_Conv S_History S_Secrecy S_Thefts S_Many S_Net S_Raid S_Carried P_Carried K_Toy K_World K_Conv K_Net K_Raid K_Carried.
Local Open Scope nat_scope.

(** Devices of a network are copied at any times, any private keys leak, and states of one
    sender's group chain are stolen. The distribution messages of the chain that were sent in
    conversations are known to the thieves only as far as they can decrypt them ([inv] lists all of them).
    All stolen bytes and all messages are the values of the listed terms; and a group message can be derived exactly
    if the stolen group states give it away (C80), or a distribution message that starts at or before it can be read in
    its conversation (C88). Having both kinds of loot gives nothing more. *)
Theorem c89_exact : forall C dev es L c inv sent (thefts : list (mailbox * gstate)), CryptoOk C -> raid C dev es L -> NoDup (map cb_base es) -> carried C c es inv ->
  (forall n pt m, In (n, pt, m) sent -> genuine C c n pt m) -> NoDup (map (fun x => fst (fst x)) sent) ->
  (forall b s, In (b, s) thefts -> group_theft C c b s) ->
  exists pr tx gx, let val := uvalue C pr tx (cn_key c) gx in let l := letters c inv in
    (forall e, In e es -> names C (fun a => pr (key_of e a)) (cb_bundle e) (cb_base e) (fun part => dev (cb_end e part)) (ln_keys (cb_link e))) /\
    (forall r a rec s, In r L -> w_sess (rd_device r) a = Some rec -> state_in s rec ->
       exists e part, In e (rd_cables r) /\ rd_who r = cb_end e part /\ a = cb_end e (negb part) /\ ss_alice_base s = Byte.x05 :: cb_base e /\
         session_secrets s = map (fun t => val (of_net l (named e t))) (held (cb_one e) (ln_par (cb_link e) part))) /\
    (forall e x m, In e es -> In x (ln_notes (cb_link e)) -> inner (nt_cipher x) = Some m ->
       val (of_net l (named e (TText (nt_epoch x) (nt_counter x)))) = nt_text x /\
       sg_body m = val (of_net l (named e (body_of (cb_one e) (nt_epoch x) (nt_counter x)))) /\
       exists ser text, sg_raw m = ser ++ val (of_net l (named e (tag_of (cb_one e) (nt_epoch x) (nt_counter x) text)))) /\
    (forall b s, In (b, s) thefts -> group_secrets s = map (fun t => val (of_group t)) (gheld c b)) /\
    (forall n pt m, In (n, pt, m) sent -> gx n = pt /\ sm_body m = val (of_group (gbody_of c n))) /\
    (forall X n pt m, In (n, pt, m) sent -> let bs := map fst thefts in let ns := map (fun x => fst (fst x)) sent in
       (group_taken C dev X L es c inv bs ns n <->
        group_stolen c bs ns n \/ exists e x i, In (e, x, i) inv /\ taken C dev X L es e x /\ (dm_iter i <= n)%N)).
Proof. exact carried_exact. Qed.
Print Assumptions c89_exact.
(** A distribution message made after "one" and before "two" goes to Bob, whose device is copied before it has
    come: "two" can be read, "one" can not. *)
Example c89_exact_case : forall sh : bool, exists c dev sig m i m2 L x0 x1, let e := told_cable sig m (dm_raw i) m2 in let es := [e; carol_cable sig] in
  let inv := [(e, mkNote true 1 1 (dm_raw i) m2, i)] in let sent := [(0%N, str "one", x0); (1%N, str "two", x1)] in
  raid toy dev es L /\ NoDup (map cb_base es) /\ carried toy c es inv /\
  (forall n pt x, In (n, pt, x) sent -> genuine toy c n pt x) /\ NoDup (map (fun x : N * bytes * senderkeymsg => fst (fst x)) sent) /\
  group_taken toy dev nothing L es c inv [] [0%N; 1%N] 1 /\ ~ group_taken toy dev nothing L es c inv [] [0%N; 1%N] 0.
Proof. exact carried_read. Qed.

(** As long as no state of the chain is stolen, a message is safe if every conversation in which a
    distribution message at or before it was sent is one that C88 calls untouched: the group needs no trust in the
    devices and conversations that had no part in handing out the key. *)
Theorem c89_untouched : forall C dev es L c inv sent (X : nkey -> Prop) n pt m, CryptoOk C -> raid C dev es L -> NoDup (map cb_base es) -> carried C c es inv ->
  (forall n pt m, In (n, pt, m) sent -> genuine C c n pt m) -> NoDup (map (fun x => fst (fst x)) sent) -> In (n, pt, m) sent ->
  (forall e x i, In (e, x, i) inv -> (dm_iter i <= n)%N ->
     (forall r e', In r L -> In e' (rd_cables r) -> cb_base e' = cb_base e -> rd_who r <> cb_from e /\ rd_who r <> cb_to e) /\
     ~ X (NBase (cb_base e)) /\ ~ known C dev X L (key_of e (ARatchet 0))) ->
  ~ group_taken C dev X L es c inv [] (map (fun x => fst (fst x)) sent) n.
Proof. exact carried_untouched. Qed.
Print Assumptions c89_untouched.
(** Alice's device is copied before, Carol's after: both identity keys and Carol's session are stolen. *)
Example c89_untouched_case : forall sh : bool, exists c dev sig m i m2 L x0 x1, let e := told_cable sig m (dm_raw i) m2 in let es := [e; carol_cable sig] in
  let inv := [(e, mkNote true 1 1 (dm_raw i) m2, i)] in let sent := [(0%N, str "one", x0); (1%N, str "two", x1)] in
  raid toy dev es L /\ NoDup (map cb_base es) /\ carried toy c es inv /\
  (forall n pt x, In (n, pt, x) sent -> genuine toy c n pt x) /\ NoDup (map (fun x : N * bytes * senderkeymsg => fst (fst x)) sent) /\ List.length L = 2 /\
  (forall e x i, In (e, x, i) inv -> (dm_iter i <= 1)%N ->
     (forall r e', In r L -> In e' (rd_cables r) -> cb_base e' = cb_base e -> rd_who r <> cb_from e /\ rd_who r <> cb_to e) /\
     ~ nothing (NBase (cb_base e)) /\ ~ known toy dev nothing L (key_of e (ARatchet 0))) /\
  ~ group_taken toy dev nothing L es c inv [] [0%N; 1%N] 1.
Proof. exact carried_safe_case. Qed.
