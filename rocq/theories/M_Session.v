(** protocol/session/session.go and protocol/session/cipher.go *)
From Verif Require Import M_Base M_Crypto M_Aes M_Curve M_Proto M_Message M_Ratchet M_State M_Store.

(** prekey/bundle.go:12-21 Bundle. Interface-typed fields may be nil. *)
Record bundle := mkBundle {
  bd_reg : N;
  bd_prekey_id : option N;
  bd_prekey : option pubkey;
  bd_signed_id : N;
  bd_signed : option pubkey;
  bd_signature : bytes;
  bd_identity : option pubkey
}.

(** state.go:24-28 discontinuityBytes. *)
Definition discontinuity : bytes := repeat Byte.xff 32.

Definition empty_state : state := mkState 0 [] [] [] 0 None [] None 0 0 [].

(** session.go:254-259, 311-316: fresh SessionStructure with version 3. *)
Definition fresh_state (localid remoteid root : bytes) : state :=
  mkState 3 localid remoteid root 0 None [] None 0 0 [].

(** session.go:206-264 initializeAliceSession; ratchet/params.go:11-19 AliceParameters.
    The identity and base key pairs are passed as their private halves plus the identity
    public key that is stored. *)
Definition init_alice (C : Crypto) (rnd : bytes) (ident : keypair) (base : keypair)
    (their_ident their_signed : pubkey) (their_onetime : option pubkey) (their_ratchet : pubkey)
  : res state * bytes :=
  match gen_keypair C rnd with
  | (Ok ratchet_pair, rest) =>
      (do dh1 <- agreement C (kp_priv ident) their_signed;
       do dh2 <- agreement C (kp_priv base) their_ident;
       do dh3 <- agreement C (kp_priv base) their_signed;
       do secrets <- match their_onetime with
                     | Some ot => do dh4 <- agreement C (kp_priv base) ot;
                                  Ok (discontinuity ++ dh1 ++ dh2 ++ dh3 ++ dh4)
                     | None => Ok (discontinuity ++ dh1 ++ dh2 ++ dh3)
                     end;
       do (root, chain) <- derive_keys C secrets;
       do (sroot, schain) <- create_chain C root (kp_priv ratchet_pair) their_ratchet;
       let s := fresh_state (pub_bytes (kp_pub ident)) (pub_bytes their_ident) sroot in
       let s := st_add_receiver_chain s their_ratchet chain in
       Ok (st_set_sender_chain s ratchet_pair schain), rest)
  | (Err e, rest) => (Err e, rest)
  | (Panic, rest) => (Panic, rest)
  end.

(** session.go:275-320 initializeBobSession; ratchet/params.go:24-32 BobParameters. A nil
    signed pre-key pair is dereferenced (:278), a nil ratchet pair likewise (:317). The
    error of DeriveKeys (:309) is ignored by the code; it never occurs. *)
Definition init_bob (C : Crypto) (ident : keypair) (signed onetime ratchet_pair : option keypair)
    (their_ident their_base : pubkey) : res state :=
  match signed with
  | None => Panic
  | Some signed =>
      do dh1 <- agreement C (kp_priv signed) their_ident;
      do dh2 <- agreement C (kp_priv ident) their_base;
      do dh3 <- agreement C (kp_priv signed) their_base;
      do secrets <- match onetime with
                    | Some ot => do dh4 <- agreement C (kp_priv ot) their_base;
                                 Ok (discontinuity ++ dh1 ++ dh2 ++ dh3 ++ dh4)
                    | None => Ok (discontinuity ++ dh1 ++ dh2 ++ dh3)
                    end;
      let '(root, chain) := match derive_keys C secrets with
                            | Ok rc => rc
                            | _ => ([], mkChainKey [] 0)
                            end in
      match ratchet_pair with
      | None => Panic
      | Some rp =>
          Ok (st_set_sender_chain
                (fresh_state (pub_bytes (kp_pub ident)) (pub_bytes their_ident) root) rp chain)
      end
  end.

(** session.go:62-118 processPreKeyV3. Returns the updated record and the one-time
    pre-key id. [existed]: the record pointer came from the session store. The error of
    initializeBobSession is ignored (:102-111), so the nil state is dereferenced: any
    failure there is a panic. *)
Definition process_prekey_v3 (C : Crypto) (a : addr) (existed : bool) (r : record) (m : prekeymsg)
  : prog (record * option N) :=
  plift (rc_has_state r (pm_version m) (pub_bytes (pm_base m))) (fun has =>
  if has then PRet (Ok (r, None))
  else
    pdo (OLoadSigned (pm_signed_id m)) (fun sgn =>
    plift (match sgn with
           | Some x => do k <- prekeyrec_pair C x; Ok (Some k)
           | None => Ok None end) (fun signed =>
    let cont (onetime : option keypair) : prog (record * option N) :=
      pdo OKeyPair (fun ident =>
      match init_bob C ident signed onetime signed (pm_identity m) (pm_base m) with
      | Ok s =>
          pdo ORegistrationID (fun reg =>
          let s := with_regs s (ss_remote_reg s) reg in
          let s := with_regs s (pm_reg m) (ss_local_reg s) in
          let s := with_alice_base s (pub_bytes (pm_base m)) in
          let r' := rc_promote r s in
          if existed then pdo (OTouchSession a r') (fun _ => PRet (Ok (r', pm_prekey_id m)))
          else PRet (Ok (r', pm_prekey_id m)))
      | _ => PRet Panic
      end) in
    match pm_prekey_id m with
    | None => cont None
    | Some id =>
        pdo (OLoadPreKey id) (fun x =>
        plift (match x with
               | Some x => do k <- prekeyrec_pair C x; Ok (Some k)
               | None => Ok None end) cont)
    end))).

(** session.go:38-60 ProcessPreKey. *)
Definition process_prekey (C : Crypto) (a : addr) (existed : bool) (r : record) (m : prekeymsg)
  : prog (record * option N) :=
  pdo (OIsTrusted a (pm_identity m) Receiving) (fun trusted =>
  if negb trusted then PRet (Err (EUntrusted a))
  else
    pseq (process_prekey_v3 C a existed r m) (fun '(r', id) =>
    pdo (OStoreIdentity a (pm_identity m)) (fun _ =>
    PRet (Ok (r', id))))).

(** session.go:122-195 ProcessPreKeyBundle. [rnd]: contents of the random reader. *)
Definition process_bundle (C : Crypto) (a : addr) (rnd : bytes) (b : bundle) : prog unit :=
  match bd_identity b with
  | None => (* nil identity key: the trust check compares it only if a key is stored, the
               signature check dereferences it *) PRet Panic
  | Some their_ident =>
  pdo (OIsTrusted a their_ident Sending) (fun trusted =>
  if negb trusted then PRet (Err (EOther "untrusted identity"))
  else
    match bd_signed b with
    | None => PRet Panic
    | Some their_signed =>
    plift (verify_signature C their_ident (bd_signature b) [pub_bytes their_signed]) (fun ok =>
    if negb ok then PRet (Err (EOther "signature validation failed"))
    else
      pdo (OLoadSession a) (fun lr =>
      let existed := match lr with Some _ => true | None => false end in
      let r := match lr with Some r => r | None => new_record None end in
      match gen_keypair C rnd with
      | (Ok base, rnd1) =>
          pdo OKeyPair (fun ident =>
          plift (fst (init_alice C rnd1 ident base their_ident their_signed (bd_prekey b) their_signed))
            (fun s =>
          let s := st_set_unack s (bd_prekey_id b) (bd_signed_id b) (kp_pub base) in
          pdo ORegistrationID (fun reg =>
          let s := with_regs s (ss_remote_reg s) reg in
          let s := with_regs s (bd_reg b) (ss_local_reg s) in
          let s := with_alice_base s (pub_bytes (kp_pub base)) in
          pdo (OStoreIdentity a their_ident) (fun _ =>
          let r' := rc_promote r s in
          let fin := pdo (OStoreSession a r') (fun _ => PRet (Ok tt)) in
          if existed then pdo (OTouchSession a r') (fun _ => fin) else fin))))
      | (Err e, _) => PRet (Err e)
      | (Panic, _) => PRet Panic
      end))
    end)
  end.

(** cipher.go:23-124 EncryptMessage: the part between Load and the trust check, as a
    function of the current state: the message and the advanced state. *)
Definition encrypt_state (C : Crypto) (s : state) (pt : bytes) : res (ciphertext * state * pubkey) :=
  do ck <- st_sender_chain_key s;
  let mk := ck_message_keys C ck in
  do eph <- st_sender_ratchet s;
  let version := (st_version s mod 256)%N in
  do lid <- st_local_identity s;
  do rid <- st_remote_identity s;
  match rid with
  | None => Err (EOther "no remote identity key")
  | Some rid =>
      do ct <- cbc_encrypt C (mk_cipher mk) (mk_iv mk) pt;
      do msg <- new_signal C version (mk_mac mk) eph (ss_prevctr s) (ck_index ck) ct lid rid;
      do items <- st_unack s;
      let out := match items with
                 | Some u => CPreKey (new_prekey_msg version (ss_local_reg s) (ua_prekey u)
                                                     (ua_signed u) (ua_base u) lid msg)
                 | None => CSignal msg
                 end in
      Ok (out, st_set_sender_chain_key s (ck_next C ck), rid)
  end.

(** cipher.go:23-124 EncryptMessage. *)
Definition encrypt_message (C : Crypto) (a : addr) (pt : bytes) : prog ciphertext :=
  pdo (OLoadSession a) (fun lr =>
  match lr with
  | None => PRet (Err (ESessionNotFound a))
  | Some r =>
      match rc_current r with
      | None => PRet (Err (ESessionNotFound a))
      | Some s =>
          plift (encrypt_state C s pt) (fun '(msg, s', rid) =>
          let r' := rc_set_state r s' in
          pdo (OTouchSession a r') (fun _ =>
          pdo (OIsTrusted a rid Sending) (fun trusted =>
          if negb trusted then PRet (Err (EUntrusted a))
          else
            pdo (OStoreIdentity a rid) (fun _ =>
            pdo (OStoreSession a r') (fun _ =>
            PRet (Ok msg))))))
      end
  end).

(** cipher.go:325-376 chainKey: the chain key for the sender's ratchet key and the
    updated state; a new DH ratchet step when the key is unknown. *)
Definition get_chain_key (C : Crypto) (rnd : bytes) (s : state) (eph : pubkey)
  : res (chainkey * state) * bytes :=
  match st_receiver_chain_key s eph with
  | Err e => (Err e, rnd)
  | Panic => (Panic, rnd)
  | Ok (Some ck) => (Ok (ck, s), rnd)
  | Ok None =>
      match (do root <- st_root s;
             do ours <- st_sender_ratchet_priv C s;
             create_chain C root ours eph) with
      | Err e => (Err e, rnd)
      | Panic => (Panic, rnd)
      | Ok (rroot, rchain) =>
          match gen_keypair C rnd with
          | (Err e, rest) => (Err e, rest)
          | (Panic, rest) => (Panic, rest)
          | (Ok kp, rest) =>
              (do (sroot, schain) <- create_chain C rroot (kp_priv kp) eph;
               do cur <- st_sender_chain_key s;
               let s := with_root s sroot in
               let s := st_add_receiver_chain s eph rchain in
               let prev := if N.ltb 0 (ck_index cur) then (ck_index cur - 1)%N else 0%N in
               let s := with_prevctr s prev in
               Ok (rchain, st_set_sender_chain s kp schain), rest)
          end
      end
  end.

(** cipher.go:20 MaxJumps. *)
Definition max_jumps : N := 25000.

(** cipher.go:405-414 the loop of messageKeys: save the keys of the skipped positions.
    [n] is the number of iterations, counter - index. *)
Fixpoint skip_keys (C : Crypto) (n : nat) (s : state) (eph : pubkey) (ck : chainkey)
  : res (state * chainkey) :=
  match n with
  | O => Ok (s, ck)
  | S m => do s' <- st_set_message_keys s eph (ck_message_keys C ck);
           skip_keys C m s' eph (ck_next C ck)
  end.

(** cipher.go:378-422 messageKeys. *)
Definition get_message_keys (C : Crypto) (s : state) (eph : pubkey) (ck : chainkey) (counter : N)
  : res (msgkeys * state) :=
  if N.ltb counter (ck_index ck) then
    let '(s', o) := st_take_message_keys s eph counter in
    match o with
    | Err e => Err e
    | Panic => Panic
    | Ok (Some k) => Ok (k, s')
    | Ok None => Err EDuplicate
    end
  else
    let jump := (counter - ck_index ck)%N in
    do self <- (if N.ltb max_jumps jump then st_with_self s else Ok true);
    if negb self then Err (EOther "message from too far in the future")
    else
      do (s', ck') <- skip_keys C (N.to_nat jump) s eph ck;
      do s'' <- st_set_receiver_chain_key s' eph ck';
      Ok (ck_message_keys C ck', s'').

(** cipher.go:273-323 decryptMessageSession: plaintext and updated state; on error the
    mutated state is discarded by every caller. Also the rest of the random reader. *)
Definition decrypt_session (C : Crypto) (rnd : bytes) (s : state) (m : signal)
  : res (bytes * state) * bytes :=
  match ss_sender s with
  | None => (Err (EOther "no session available to decrypt"), rnd)
  | Some _ =>
      if negb (N.eqb (sg_version m) (st_version s))
      then (Err (EOther "unrecognized message version"), rnd)
      else
        match get_chain_key C rnd s (sg_ratchet m) with
        | (Err e, rest) => (Err e, rest)
        | (Panic, rest) => (Panic, rest)
        | (Ok (ck, s1), rest) =>
            (do (mk, s2) <- get_message_keys C s1 (sg_ratchet m) ck (sg_counter m);
             do rid <- st_remote_identity s2;
             match rid with
             | None => Err (EOther "cannot decrypt without remote identity key")
             | Some rid =>
                 do lid <- st_local_identity s2;
                 do valid <- verify_mac C m (mk_mac mk) rid lid;
                 if negb valid then Err (EOther "MAC verification failed")
                 else
                   do pt <- cbc_decrypt C (mk_cipher mk) (mk_iv mk) (sg_body m);
                   Ok (pt, st_clear_unack s2)
             end, rest)
        end
  end.

(** cipher.go:242-257 the loop over the archived states. [break] leaves the switch, not
    the loop: later states are tried too and the last success wins; a duplicate in a
    later state overrides an earlier success. *)
Fixpoint try_previous (C : Crypto) (rnd : bytes) (i : nat) (l : list state) (m : signal)
    (found : option (nat * state * bytes)) : res (option (nat * state * bytes)) * bytes :=
  match l with
  | [] => (Ok found, rnd)
  | s :: r =>
      match decrypt_session C rnd s m with
      | (Ok (pt, s'), rest) => try_previous C rest (S i) r m (Some (i, s', pt))
      | (Err EDuplicate, rest) => (Err EDuplicate, rest)
      | (Err _, rest) => try_previous C rest (S i) r m found
      | (Panic, rest) => (Panic, rest)
      end
  end.

(** cipher.go:220-271 decryptMessage on a record: plaintext and updated record; on error
    the record is not modified. *)
Definition decrypt_record (C : Crypto) (rnd : bytes) (r : record) (m : signal)
  : res (bytes * record) :=
  let previous (rnd : bytes) : res (bytes * record) :=
    do l <- rc_previous_states r;
    match try_previous C rnd 0 l m None with
    | (Ok (Some (i, s, pt)), _) => Ok (pt, rc_promote_old r i s)
    | (Ok None, _) => Err (EOther "decryption failed: invalid message")
    | (Err e, _) => Err e
    | (Panic, _) => Panic
    end in
  match rc_current r with
  | Some s =>
      match decrypt_session C rnd s m with
      | (Ok (pt, s'), _) => Ok (pt, rc_set_state r s')
      | (Err EDuplicate, _) => Err EDuplicate
      | (Err _, rest) => previous rest
      | (Panic, _) => Panic
      end
  | None => previous rnd
  end.

(** cipher.go:138-171 decryptPreKey. *)
Definition decrypt_prekey (C : Crypto) (a : addr) (rnd : bytes) (m : prekeymsg) : prog bytes :=
  pdo (OLoadSession a) (fun lr =>
  let existed := match lr with Some _ => true | None => false end in
  let r := match lr with Some r => r | None => new_record None end in
  pseq (process_prekey C a existed r m) (fun '(r1, pkid) =>
  plift (decrypt_record C rnd r1 (pm_message m)) (fun '(pt, r2) =>
  let fin :=
    pdo (OStoreSession a r2) (fun _ =>
    match pkid with
    | Some id => pdo (ODeletePreKey id) (fun _ => PRet (Ok pt))
    | None => PRet (Ok pt)
    end) in
  if existed then pdo (OTouchSession a r2) (fun _ => fin) else fin))).

(** cipher.go:173-212 decryptSignal. The error of decryptMessage (:182) is overwritten
    (:187), so a failure continues with a nil plaintext and the unmodified record. *)
Definition decrypt_signal (C : Crypto) (a : addr) (rnd : bytes) (m : signal) : prog bytes :=
  pdo (OLoadSession a) (fun lr =>
  match lr with
  | None => PRet (Err (ESessionNotFound a))
  | Some r =>
      let rest (pt : bytes) (r' : record) : prog bytes :=
        match rc_current r' with
        | None => PRet (Err (EOther "successfully decrypted; must have a current state"))
        | Some s =>
            match st_remote_identity s with
            | Ok (Some rid) =>
                pdo (OIsTrusted a rid Receiving) (fun trusted =>
                if negb trusted then PRet (Err (EUntrusted a))
                else
                  pdo (OStoreIdentity a rid) (fun _ =>
                  pdo (OStoreSession a r') (fun _ =>
                  PRet (Ok pt))))
            | Panic => PRet Panic
            | _ => PRet (Err (EOther "successfully decrypted; must have a remote identity key"))
            end
        end in
      match decrypt_record C rnd r m with
      | Ok (pt, r') => pdo (OTouchSession a r') (fun _ => rest pt r')
      | Err _ => rest [] r
      | Panic => PRet Panic
      end
  end).

(** cipher.go:127-136 DecryptMessage. *)
Definition decrypt_message (C : Crypto) (a : addr) (rnd : bytes) (c : ciphertext) : prog bytes :=
  match c with
  | CPreKey m => decrypt_prekey C a rnd m
  | CSignal m => decrypt_signal C a rnd m
  | _ => PRet (Err (EOther "DecryptMessage cannot be used to decrypt this message type"))
  end.
