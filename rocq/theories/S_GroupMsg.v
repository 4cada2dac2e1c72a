(** Vocabulary of the group properties: messages, sending, receiving. *)
From Verif Require Import M_Base M_Crypto M_Aes M_Curve M_Uuid M_Message M_Ratchet M_State M_Store M_Session M_Group
  S_Crypto S_Message S_State S_Shape S_Ratchet S_Session S_Curve S_Api S_Group.

(** The last 64 bytes of the message are an XEdDSA signature of the rest under [key]. *)
Definition signed_by (C : Crypto) (key : pubkey) (m : senderkeymsg) : Prop :=
  exists text r t y, sm_raw m = text ++ r ++ [t] /\ List.length (r ++ [t]) = 64 /\
    edwards_of key (128 <=? b2n t)%N y /\ c_edverify C y text (r ++ [n2b (b2n t mod 128)]) = true.

(** [m] carries [pt] at iteration [n] of the sender's chain [chain] for [d], where the
    chain key bytes are [key]: encrypted under that iteration's key, signed by [signing]. *)
Definition group_message (C : Crypto) (key : bytes) (n chain : N) (d : distid) (signing : pubkey) (pt : bytes)
    (m : senderkeymsg) : Prop :=
  sm_version m = 3%N /\ sm_dist m = d /\ sm_chain m = chain /\ sm_iter m = n /\ signed_by C signing m /\
  exists mk, gkeys_at C key n mk /\ cbc_encrypt C (gk_cipher mk) (gk_iv mk) pt = Ok (sm_body m).

(** The state a device sends with for [d]: its chain, signing key, iteration, chain key. *)
Definition speaks (w : world) (a : addr) (d : distid) (chain : N) (signing : pubkey) (n : N) (key : bytes) : Prop :=
  exists s r, w_groups w a d = Some (s :: r) /\ gs_chain s = chain /\ gs_pub s = Byte.x05 :: signing /\
    gs_iter s = n /\ gs_seed s = key.
(** The state a device has for the chain of the sender [a]. *)
Definition follows (w : world) (a : addr) (d : distid) (chain : N) (s : gstate) : Prop :=
  exists r, w_groups w a d = Some r /\ In s r /\ gs_chain s = chain.

(** What a distribution message says. *)
Definition tells (m : distmsg) (d : distid) (chain : N) (signing : pubkey) (n : N) (key : bytes) : Prop :=
  dm_version m = 3%N /\ dm_dist m = d /\ dm_chain m = chain /\ dm_signing m = signing /\ dm_iter m = n /\ dm_chainkey m = key.

(** Private signing keys a device holds belong to the public keys beside them. *)
Definition own_keys (C : Crypto) (w : world) : Prop :=
  forall a d r s, w_groups w a d = Some r -> In s r ->
    gs_priv s = [] \/ gs_pub s = Byte.x05 :: mont_pub C (gs_priv s).

(** Successful calls of group EncryptMessage, in order. *)
Inductive gsends (C : Crypto) (a : addr) (d : distid) : world -> list (bytes * senderkeymsg) -> world -> Prop :=
| gsends_nil : forall w, gsends C a d w [] w
| gsends_cons : forall w rnd pt fs m w1 l w2, run (gencrypt C a d rnd pt) fs w = (Ok m, w1) ->
    gsends C a d w1 l w2 -> gsends C a d w ((pt, m) :: l) w2.

(** Executions (S_Api.v) in which only calls satisfying [P] are made. *)
Inductive step_with (C : Crypto) (P : call -> Prop) : list thread * world -> list thread * world -> Prop :=
| sw_call : forall c ts w, wf_call c -> P c -> step_with C P (ts, w) (start C c :: ts, w)
| sw_op : forall ts1 ts2 {A X} (o : op X) (k : res X -> prog A) f w x w',
    exec_f o f w = (x, w') ->
    step_with C P (ts1 ++ Thread (PDo o k) :: ts2, w) (ts1 ++ Thread (k x) :: ts2, w')
| sw_crash : forall ts1 t ts2 w, step_with C P (ts1 ++ t :: ts2, w) (ts1 ++ ts2, w)
| sw_env : forall ts w w', env_change w w' -> step_with C P (ts, w) (ts, w').
Inductive reachable_with (C : Crypto) (P : call -> Prop) : list thread * world -> Prop :=
| rw_init : forall w, empty_world w -> reachable_with C P ([], w)
| rw_step : forall c c', reachable_with C P c -> step_with C P c c' -> reachable_with C P c'.

(** * Receiving *)
(** A receiver, abstractly: the next iteration of the chain, and the skipped iterations
    that can still be read, oldest first. *)
Record mailbox := mkMailbox { mb_next : N; mb_open : list N }.
Inductive verdict := Fresh | Repeated | TooFar.
Fixpoint count_up (from : N) (n : nat) : list N :=
  match n with O => [] | S m => from :: count_up (from + 1) m end.
(** What the arrival of iteration [n] must do: at most 25000 ahead is read, the ones
    skipped over become open, of which the last 2000 are kept; an open one is read and
    closed; everything else has been read, was never meant for us, or was dropped. *)
Definition arrive (b : mailbox) (n : N) : verdict * mailbox :=
  if (n <? mb_next b)%N then
    if existsb (N.eqb n) (mb_open b)
    then (Fresh, mkMailbox (mb_next b) (filter (fun x => negb (N.eqb x n)) (mb_open b)))
    else (Repeated, b)
  else if (mb_next b + 25000 <? n)%N then (TooFar, b)
  else let skipped := count_up (mb_next b) (N.to_nat (n - mb_next b)) in
       let l := mb_open b ++ skipped in
       (Fresh, mkMailbox (n + 1) (skipn (List.length l - 2000) l)).
Definition answer (v : verdict) (pt : bytes) (r : res bytes) : Prop :=
  match v with
  | Fresh => r = Ok pt
  | Repeated => r = Err EDuplicate
  | TooFar => r = Err (EOther "message from too far in the future")
  end.

(** One sender's chain as its distribution message gave it away at iteration [n0]. *)
Record channel := mkChannel { cn_dist : distid; cn_chain : N; cn_signing : pubkey; cn_first : N; cn_key : bytes }.
Definition genuine (C : Crypto) (c : channel) (n : N) (pt : bytes) (m : senderkeymsg) : Prop :=
  (cn_first c <= n)%N /\
  group_message C (chain_at C (cn_key c) (N.to_nat (n - cn_first c))) n (cn_chain c) (cn_dist c) (cn_signing c) pt m.

(** A member's history with that channel: it processes the distribution message (which is
    new to it); then, in any order and number, the sender's messages arrive, and anything
    else happens that leaves its state for the channel alone. [l] lists the arrivals so
    far: iteration, plaintext encrypted, and the result of DecryptMessage. *)
Inductive member (C : Crypto) (a : addr) (c : channel) : list (N * bytes * res bytes) -> world -> Prop :=
| mem_start : forall w m w', wf_device w -> wf_dist m ->
    tells m (cn_dist c) (cn_chain c) (cn_signing c) (cn_first c) (cn_key c) ->
    (forall s, follows w a (cn_dist c) (cn_chain c) s -> gs_pub s <> Byte.x05 :: cn_signing c) ->
    run0 (process_dist a m) w = (Ok tt, w') -> member C a c [] w'
| mem_arrival : forall l w n pt m r w', member C a c l w -> genuine C c n pt m -> (n + 1 < 2 ^ 32)%N ->
    run0 (gdecrypt C a m) w = (r, w') -> member C a c (l ++ [(n, pt, r)]) w'
| mem_other : forall l w w', member C a c l w -> wf_device w' ->
    (forall s, follows w a (cn_dist c) (cn_chain c) s -> follows w' a (cn_dist c) (cn_chain c) s) ->
    member C a c l w'.
Fixpoint arrivals (b : mailbox) (l : list N) : mailbox :=
  match l with [] => b | n :: t => arrivals (snd (arrive b n)) t end.

(** A device in good order: well formed, and its private group keys match their public
    keys; every reachable device is one. *)
Definition own_device (C : Crypto) (w : world) : Prop := wf_device w /\ own_keys C w.
(** [n] attempts to send, successful, failed or cut off by a crash, and other calls that
    leave the group record alone; [l]: the messages returned. *)
Inductive gtries (C : Crypto) (a : addr) (d : distid) : nat -> world -> list (bytes * senderkeymsg) -> world -> Prop :=
| gtries_nil : forall w, gtries C a d 0 w [] w
| gtries_ok : forall n w rnd pt fs m w1 l w2, run (gencrypt C a d rnd pt) fs w = (Ok m, w1) ->
    gtries C a d n w1 l w2 -> gtries C a d (S n) w ((pt, m) :: l) w2
| gtries_fail : forall n w rnd pt fs r w1 l w2, run (gencrypt C a d rnd pt) fs w = (r, w1) -> (forall m, r <> Ok m) ->
    gtries C a d n w1 l w2 -> gtries C a d (S n) w l w2
| gtries_crash : forall n w rnd pt fs k l w2,
    gtries C a d n (crash k (gencrypt C a d rnd pt) fs w) l w2 -> gtries C a d (S n) w l w2
| gtries_other : forall n w w1 l w2, own_device C w1 -> w_groups w1 a d = w_groups w a d ->
    gtries C a d n w1 l w2 -> gtries C a d (S n) w l w2.

(** Executions on device [w] in which the chain of [a] for [d] is only learnt from
    distribution messages at iteration [n] or later, and its messages do not reach the
    end of the uint32 range. *)
Definition joined_at (a : addr) (d : distid) (chain n : N) (c : call) : Prop :=
  match c with
  | CGProcess b m => b = a -> dm_dist m = d -> dm_chain m = chain -> (n <= dm_iter m)%N
  | CGNew b e _ _ => ~ (b = a /\ e = d)
  | CGDecrypt b m => b = a -> sm_dist m = d -> sm_chain m = chain -> (sm_iter m + 1 < 2 ^ 32)%N
  | _ => True
  end.
(** No sender key is created for [a] and [d]. *)
Definition no_own_key (a : addr) (d : distid) (c : call) : Prop :=
  match c with CGNew b e _ _ => ~ (b = a /\ e = d) | _ => True end.

(** The state a distribution message describes: position and keys, nothing saved, no
    private key. *)
Definition learnt (m : distmsg) : gstate :=
  mkGState 3 (dm_chain m) (dm_iter m) (dm_chainkey m) (Byte.x05 :: dm_signing m) [] [].
(** What processing it makes of the record (C47). *)
Inductive redistributed (m : distmsg) : grecord -> grecord -> Prop :=
| rd_known : forall l1 e l2, gs_chain e = dm_chain m -> gs_pub e = Byte.x05 :: dm_signing m ->
    redistributed m (l1 ++ e :: l2) (l1 ++ l2 ++ [e])
| rd_replaced : forall l1 e l2, gs_chain e = dm_chain m -> gs_pub e <> Byte.x05 :: dm_signing m ->
    redistributed m (l1 ++ e :: l2) (l1 ++ l2 ++ [learnt m])
| rd_added : forall r, ~ In (dm_chain m) (map gs_chain r) -> List.length r < 5 ->
    redistributed m r (r ++ [learnt m])
| rd_evicted : forall oldest r, ~ In (dm_chain m) (map gs_chain (oldest :: r)) -> List.length (oldest :: r) = 5 ->
    redistributed m (oldest :: r) (r ++ [learnt m]).
Definition held (w : world) (a : addr) (d : distid) : grecord :=
  match w_groups w a d with Some r => r | None => [] end.

(** Nothing a session may hold is unbounded (C27), nor a group record (C46). *)
Definition session_bounded (s : state) : Prop :=
  List.length (ss_receivers s) <= 5 /\ forall c, In c (ss_receivers s) -> List.length (pc_msgkeys c) <= 2000.

(** The channel a distribution message opens. *)
Definition channel_of (m : distmsg) : channel := mkChannel (dm_dist m) (dm_chain m) (dm_signing m) (dm_iter m) (dm_chainkey m).
(** The device owns the sending key of [a] for [d]. *)
Definition sender_of (w : world) (a : addr) (d : distid) : Prop :=
  exists s r, w_groups w a d = Some (s :: r) /\ List.length (gs_priv s) = 32.
(** Iteration [n] was delivered. *)
Definition accepted (l : list (N * bytes * res bytes)) (n : N) : Prop := exists pt x, In (n, pt, Ok x) l.
(** The mailbox after the arrivals listed. *)
Definition box (c : channel) (l : list (N * bytes * res bytes)) : mailbox :=
  arrivals (mkMailbox (cn_first c) []) (map (fun x => fst (fst x)) l).
