(** A network of any number of devices: C86. *)
From Verif Require Import M_Base M_Crypto M_Aes M_Curve M_Message M_Ratchet M_State M_Store M_Session M_Group
  S_Crypto S_Message S_Shape S_Ratchet S_Session S_Api S_Send S_Group S_X3dh S_Receive S_Conv S_History S_Isolation S_Atomic S_Many.

(** Every device is known to all others under its address. A cable is a session that device
    [cb_from] began with device [cb_to]; its bundle, keys, parties and messages are those of [cb_link]. *)
Record cable := mkCable { cb_from : addr; cb_to : addr; cb_link : link }.
(** Device [d] has its session; the part it plays in it. *)
Definition cb_role (e : cable) (d : addr) : bool := addr_eqb d (cb_from e).
Definition has_cable (e : cable) (d : addr) : Prop := d = cb_from e \/ d = cb_to e /\ p_epoch (ln_par (cb_link e) false) <> 0.
Definition dev_set (dev : addr -> world) (d : addr) (w : world) : addr -> world := fun x => if addr_eqb x d then w else dev x.
(** What two devices share: S_Many.v with [x] as device [true] and [y] as device [false]. *)
Definition link_between (x y : addr) (e : cable) : list link :=
  let l := cb_link e in
  if addr_eqb (cb_from e) x && addr_eqb (cb_to e) y then [mkLink true (ln_bundle l) (ln_base l) (ln_par l) (ln_keys l) (ln_notes l)]
  else if addr_eqb (cb_from e) y && addr_eqb (cb_to e) x then [mkLink false (ln_bundle l) (ln_base l) (ln_par l) (ln_keys l) (ln_notes l)]
  else [].
Definition facing (x y : addr) (s : bool) : addr := if negb s then x else y.
Definition links_between (x y : addr) (es : list cable) : list link := flat_map (link_between x y) es.

(** A call on a group, with well-formed arguments. *)
Definition group_call (c : call) : Prop := match scope_of c with OwnGroup _ _ => wf_call c | OwnSession _ => False end.

(** [net_from C init dev es]: executions of the network from a state in [init]; [net C dev es]: those from the
    beginning. One-to-one calls may meet store failures if they return without error. *)
Inductive net_from (C : Crypto) (init : (addr -> world) -> list cable -> Prop) : (addr -> world) -> list cable -> Prop :=
| net_start : forall dev es, init dev es -> net_from C init dev es
(** Device [d] processes a bundle of [e]: S_Many.v. No one-time pre-key of [e] is given out twice. *)
| net_begin : forall dev es d e b ia ib sb ob rnd fs w', net_from C init dev es -> d <> e ->
    List.length (links_between d e es) <= 40 -> wf_bundle b ->
    pair_for C ia (w_pair (dev d)) -> published C (dev e) b ib sb ob -> 64 <= List.length rnd ->
    ~ In (mont_pub C (firstn 32 rnd)) (bases (links_between d e es)) ->
    ~ In (mont_pub C (firstn 32 (skipn 32 rnd))) (mont_pub C sb :: all_keys (links_between d e es)) ->
    (forall l, In l (links_between d e es) -> ~ In (mont_pub C sb) (tl (ln_keys l))) ->
    (forall c id, In c es -> cb_to c = e -> bd_prekey_id (ln_bundle (cb_link c)) = Some id -> bd_prekey_id b <> Some id) ->
    run (process_bundle C e rnd b) fs (dev d) = (Ok tt, w') ->
    net_from C init (dev_set dev d w')
      (mkCable d e (mkLink true b (mont_pub C (firstn 32 rnd)) start_party [mont_pub C sb; mont_pub C (firstn 32 (skipn 32 rnd))] []) :: es)
(** Device [d] sends to [e], in its current session with [e]. *)
| net_send : forall dev es1 c es2 d e pt fs m w', net_from C init dev (es1 ++ c :: es2) -> d <> e -> In d [cb_from c; cb_to c] -> In e [cb_from c; cb_to c] ->
    current_base (dev d) e (ln_base (cb_link c)) -> (p_sent (ln_par (cb_link c) (cb_role c d)) + 1 < 4294967296)%N ->
    run (encrypt_message C e pt) fs (dev d) = (Ok m, w') ->
    net_from C init (dev_set dev d w') (es1 ++ mkCable (cb_from c) (cb_to c) (link_sent (cb_link c) (cb_role c d) pt m) :: es2)
(** Device [d] receives an earlier message of [e] in any of their sessions. *)
| net_receive : forall dev es1 c es2 d e k n pt m rnd fs pt' u w', net_from C init dev (es1 ++ c :: es2) -> d <> e -> In d [cb_from c; cb_to c] -> In e [cb_from c; cb_to c] ->
    In (mkNote (negb (cb_role c d)) k n pt m) (ln_notes (cb_link c)) -> receivable (ln_par (cb_link c) (cb_role c d)) k n ->
    all_fresh C (all_keys (links_between d e (es1 ++ c :: es2))) (ln_par (cb_link c) (cb_role c d)) k (List.length (links_between d e (es1 ++ c :: es2))) rnd ->
    (has_cable c d -> ~ misread C (dev d) e (ln_base (cb_link c)) m) ->
    run (decrypt_message C e rnd m) fs (dev d) = (Ok pt', w') -> current_ratchet w' e u ->
    net_from C init (dev_set dev d w') (es1 ++ mkCable (cb_from c) (cb_to c) (link_got (cb_link c) (cb_role c d) k n u) :: es2)
(** Device [d] makes a group call: any one, with any store failures; it may stop anywhere. *)
| net_group : forall dev es d c A (p : prog A) w', net_from C init dev es -> group_call c -> start C c = Thread p -> leaves p (dev d) w' ->
    net_from C init (dev_set dev d w') es
(** Device [d], whose stores copy what they hold, makes a call that is bound to be refused, such
    as decrypting a message made up by anyone; again with any failures. *)
| net_refused : forall dev es d c A (p : prog A) w', net_from C init dev es -> w_shared (dev d) = false -> wf_call c -> start C c = Thread p ->
    ~ is_ok (fst (run0 p (dev d))) -> leaves p (dev d) w' ->
    net_from C init (dev_set dev d w') es
(** Anything else that leaves the sessions of device [d] alone, and the pre-keys of sessions not yet accepted. *)
| net_other : forall dev es d w', net_from C init dev es -> wf_device w' -> w_pair w' = w_pair (dev d) ->
    (forall a, w_sess w' a = w_sess (dev d) a) ->
    (forall c, In c es -> cb_to c = d -> ~ has_cable c d -> prekeys_kept (dev d) w' (ln_bundle (cb_link c))) ->
    net_from C init (dev_set dev d w') es.
Definition fresh_net (dev : addr -> world) (es : list cable) : Prop :=
  es = [] /\ (forall d, wf_device (dev d)) /\ forall d a, w_sess (dev d) a = None.
Definition net (C : Crypto) : (addr -> world) -> list cable -> Prop := net_from C fresh_net.
