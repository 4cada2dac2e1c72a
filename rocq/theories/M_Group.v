(** protocol/session/group_state.go, group_record.go, group_session.go, group_cipher.go *)
From Verif Require Import M_Base M_Crypto M_Aes M_Curve M_Proto M_Uuid M_Message M_Ratchet M_State M_Store.

(** group_state.go:23-46 NewGroupState. *)
Definition new_gstate (version chain iter : N) (seed : bytes) (pub : pubkey) (priv : option privkey) : gstate :=
  mkGState version chain iter seed (pub_bytes pub)
           (match priv with Some k => sk_bytes k | None => [] end) [].

(** group_state.go:48-55 Version. *)
Definition gs_ver (s : gstate) : N := if N.eqb (gs_version s) 0 then 3%N else gs_version s.

(** group_state.go:61-64 SenderChainKey. *)
Definition gs_chainkey (s : gstate) : gchainkey := mkGChainKey (gs_iter s) (gs_seed s).
(** group_state.go:66-71 SetSenderChainKey. *)
Definition gs_set_chainkey (s : gstate) (c : gchainkey) : gstate :=
  mkGState (gs_version s) (gs_chain s) (gc_iter c) (gc_key c) (gs_pub s) (gs_priv s) (gs_keys s).
(** group_state.go:73-75 PrivateSigningKey, :77-79 PublicSigningKey. *)
Definition gs_private (C : Crypto) (s : gstate) : res privkey := new_private_key C (gs_priv s).
Definition gs_public (s : gstate) : res pubkey := new_public_key (gs_pub s).
Definition gs_with_keys (s : gstate) (l : list gmk) : gstate :=
  mkGState (gs_version s) (gs_chain s) (gs_iter s) (gs_seed s) (gs_pub s) (gs_priv s) l.

(** group_state.go:81-91 AddMessageKey: append, drop the first beyond 2000. *)
Definition gs_add_key (s : gstate) (k : gmsgkey) : gstate :=
  gs_with_keys s (trim_front max_message_keys (gs_keys s ++ [mkGmk (gk_iter k) (gk_seed k)])).

(** group_state.go:93-117 RemoveMessageKeys: the first saved key with that iteration. *)
Fixpoint take_gmk (iter : N) (l : list gmk) : option (gmk * list gmk) :=
  match l with
  | [] => None
  | k :: r => if N.eqb (gm_iter k) iter then Some (k, r)
              else match take_gmk iter r with
                   | Some (k', r') => Some (k', k :: r')
                   | None => None
                   end
  end.
Definition gs_remove_key (C : Crypto) (s : gstate) (iter : N) : option (gmsgkey * gstate) :=
  match take_gmk iter (gs_keys s) with
  | Some (k, r) => Some (derive_gmsgkey C (gm_seed k) (gm_iter k), gs_with_keys s r)
  | None => None
  end.

(** group_record.go:11 maxSenderKeyStates. *)
Definition max_gstates : nat := 5.

(** group_record.go:24-30 State: the first one. *)
Definition gr_state (r : grecord) : res gstate :=
  match r with [] => Err (EOther "empty sender key state") | s :: _ => Ok s end.
(** group_record.go:32-40 StateForChainID: the first match. *)
Fixpoint gr_find (chain : N) (r : grecord) : option gstate :=
  match r with
  | [] => None
  | s :: t => if N.eqb chain (gs_chain s) then Some s else gr_find chain t
  end.
(** Write through the pointer returned by State / StateForChainID. *)
Definition gr_set_first (s : gstate) (r : grecord) : grecord :=
  match r with [] => [] | _ :: t => s :: t end.
Fixpoint gr_set (chain : N) (s' : gstate) (r : grecord) : grecord :=
  match r with
  | [] => []
  | s :: t => if N.eqb chain (gs_chain s) then s' :: t else s :: gr_set chain s' t
  end.

(** group_record.go:68-89 RemoveState: first state with that chain ID and (readable)
    signing key. *)
Fixpoint gr_remove (chain : N) (key : pubkey) (r : grecord) : option gstate * grecord :=
  match r with
  | [] => (None, [])
  | s :: t =>
      if match gs_public s with
         | Ok k => N.eqb (gs_chain s) chain && pub_equal key k
         | _ => false
         end
      then (Some s, t)
      else let '(o, t') := gr_remove chain key t in (o, s :: t')
  end.
(** group_record.go:91-105 RemoveStates. *)
Definition gr_remove_chain (chain : N) (r : grecord) : grecord :=
  filter (fun s => negb (N.eqb (gs_chain s) chain)) r.
(** group_record.go:42-66 AddState. *)
Definition gr_add (s : gstate) (r : grecord) : res grecord :=
  do key <- gs_public s;
  let '(o, r1) := gr_remove (gs_chain s) key r in
  let r2 := gr_remove_chain (gs_chain s) r1 in
  let new := match o with Some e => e | None => s end in
  let r3 := if Nat.leb max_gstates (List.length r2) then skipn 1 r2 else r2 in
  Ok (r3 ++ [new]).

(** group_session.go:33-58 ProcessSenderKeyDistribution. *)
Definition process_dist (a : addr) (m : distmsg) : prog unit :=
  pdo (OLoadGroup a (dm_dist m)) (fun lr =>
  let existed := match lr with Some _ => true | None => false end in
  let r := match lr with Some r => r | None => [] end in
  let s := new_gstate (dm_version m) (dm_chain m) (dm_iter m) (dm_chainkey m) (dm_signing m) None in
  plift (gr_add s r) (fun r' =>
  let fin := pdo (OStoreGroup a (dm_dist m) r') (fun _ => PRet (Ok tt)) in
  if existed then pdo (OTouchGroup a (dm_dist m) r') (fun _ => fin) else fin)).

(** group_session.go:128-136 randomUint32 reads crypto/rand ([sysrnd]); :72 >>= 1. *)
Definition random_chain_id (sysrnd : bytes) : res N :=
  match read_full 4 sysrnd with
  | (Ok b, _) => Ok (le2n b / 2)%N
  | (Err e, _) => Err e
  | (Panic, _) => Panic
  end.

(** group_session.go:61-126 NewSenderKeyDistribution. *)
Definition dist_of_state (d : distid) (r : grecord) : res distmsg :=
  do s <- gr_state r;
  do k <- gs_public s;
  Ok (new_dist (gs_ver s mod 256)%N d (gs_chain s) (gs_iter s) (gs_seed s) k).
Definition new_sender_dist (C : Crypto) (a : addr) (d : distid) (sysrnd rnd : bytes) : prog distmsg :=
  pdo (OLoadGroup a d) (fun lr =>
  match lr with
  | Some r => plift (dist_of_state d r) (fun m => PRet (Ok m))
  | None =>
      plift (random_chain_id sysrnd) (fun chain =>
      match read_full 32 rnd with
      | (Ok seed, rnd1) =>
          plift (fst (gen_keypair C rnd1)) (fun kp =>
          plift (gr_add (new_gstate 3 chain 0 seed (kp_pub kp) (Some (kp_priv kp))) []) (fun r =>
          pdo (OStoreGroup a d r) (fun _ =>
          plift (dist_of_state d r) (fun m => PRet (Ok m)))))
      | (Err e, _) => PRet (Err e)
      | (Panic, _) => PRet Panic
      end)
  end).

(** group_cipher.go:28-61 the pure part of EncryptMessage. *)
Definition gencrypt_state (C : Crypto) (rnd : bytes) (d : distid) (s : gstate) (pt : bytes)
  : res (senderkeymsg * gstate) :=
  let ck := gs_chainkey s in
  let mk := gc_message_key C ck in
  do ct <- cbc_encrypt C (gk_cipher mk) (gk_iv mk) pt;
  do key <- gs_private C s;
  do msg <- fst (new_senderkey C rnd (gs_ver s mod 256)%N d (gs_chain s) (gk_iter mk) ct key);
  Ok (msg, gs_set_chainkey s (gc_next C ck)).

(** group_cipher.go:19-69 EncryptMessage. *)
Definition gencrypt (C : Crypto) (a : addr) (d : distid) (rnd pt : bytes) : prog senderkeymsg :=
  pdo (OLoadGroup a d) (fun lr =>
  match lr with
  | None => PRet (Err (EOther "no sender key state for distribution ID"))
  | Some r =>
      plift (gr_state r) (fun s =>
      plift (gencrypt_state C rnd d s pt) (fun '(msg, s') =>
      let r' := gr_set_first s' r in
      pdo (OTouchGroup a d r') (fun _ =>
      pdo (OStoreGroup a d r') (fun _ =>
      PRet (Ok msg)))))
  end).

(** group_cipher.go:148-155 the loop of messageKey. *)
Fixpoint gskip (C : Crypto) (n : nat) (s : gstate) (ck : gchainkey) : gstate * gchainkey :=
  match n with
  | O => (s, ck)
  | S m => gskip C m (gs_add_key s (gc_message_key C ck)) (gc_next C ck)
  end.

(** group_cipher.go:125-165 messageKey: the key, or an error, and the state as mutated
    through the pointer. MaxJumps is cipher.go:20. *)
Definition gmessage_key (C : Crypto) (s : gstate) (iter : N) : res gmsgkey * gstate :=
  let ck := gs_chainkey s in
  if N.ltb iter (gc_iter ck) then
    match gs_remove_key C s iter with
    | Some (k, s') => (Ok k, s')
    | None => (Err EDuplicate, s)
    end
  else if N.ltb 25000 (iter - gc_iter ck) then (Err (EOther "message from too far in the future"), s)
  else
    let '(s1, ck1) := gskip C (N.to_nat (iter - gc_iter ck)) s ck in
    (Ok (gc_message_key C ck1), gs_set_chainkey s1 (gc_next C ck1)).

(** group_cipher.go:72-123 DecryptMessage. *)
Definition gdecrypt (C : Crypto) (a : addr) (m : senderkeymsg) : prog bytes :=
  pdo (OLoadGroup a (sm_dist m)) (fun lr =>
  match lr with
  | None => PRet (Err (EOther "no sender key state for distribution ID"))
  | Some r =>
      match gr_find (sm_chain m) r with
      | None => PRet (Err (EOther "no sender key state for distribution ID"))
      | Some s =>
          if negb (N.eqb (sm_version m) (gs_ver s)) then PRet (Err (EOther "unrecognized message version"))
          else
            plift (gs_public s) (fun key =>
            plift (verify_senderkey C m key) (fun valid =>
            if negb valid then PRet (Err (EOther "signature verification failed"))
            else
              let '(o, s') := gmessage_key C s (sm_iter m) in
              let r' := gr_set (sm_chain m) s' r in
              pdo (OTouchGroup a (sm_dist m) r') (fun _ =>
              plift o (fun mk =>
              plift (cbc_decrypt C (gk_cipher mk) (gk_iv mk) (sm_body m)) (fun pt =>
              pdo (OStoreGroup a (sm_dist m) r') (fun _ =>
              PRet (Ok pt)))))))
      end
  end).
