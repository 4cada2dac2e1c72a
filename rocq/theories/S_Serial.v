(** Concurrent use in which calls that are in progress at the same time are apart: C70. *)
From Verif Require Import M_Base M_Crypto M_Curve M_Uuid M_Message M_Ratchet M_State M_Store M_Session M_Group S_Api S_Isolation S_Apart.
From Coq Require Import List.

(** What a call returns. *)
Inductive answer :=
| AText (r : res ciphertext) | APlain (r : res bytes) | ADone (r : res unit) | ASender (r : res senderkeymsg) | ADist (r : res distmsg).
Fixpoint answering {A} (f : res A -> answer) (p : prog A) : prog answer :=
  match p with PRet r => PRet (Ok (f r)) | PDo o k => PDo o (fun x => answering f (k x)) end.
(** The calls of S_Api.v with their answers. *)
Definition body (C : Crypto) (c : call) : prog answer :=
  match c with
  | CBundle a rnd b => answering ADone (process_bundle C a rnd b)
  | CEncrypt a pt => answering AText (encrypt_message C a pt)
  | CDecrypt a rnd m => answering APlain (decrypt_message C a rnd m)
  | CGProcess a m => answering ADone (process_dist a m)
  | CGNew a d sysrnd rnd => answering ADist (new_sender_dist C a d sysrnd rnd)
  | CGEncrypt a d rnd pt => answering ASender (gencrypt C a d rnd pt)
  | CGDecrypt a m => answering APlain (gdecrypt C a m)
  end.

(** An execution: any number of calls, their store calls interleaved and failing in any way;
    a call starts only while every call in progress is apart from it (a lock per
    conversation and per one-time pre-key does that). First the calls that have ended, in
    the order in which they did, with their answer or, if the call was abandoned, none; then
    those in progress and what is left of them. *)
Inductive serialised (C : Crypto) (w0 : world)
  : list (call * list fault * option answer) -> list (call * list fault * prog answer) -> world -> Prop :=
| se_none : serialised C w0 [] [] w0
| se_call : forall c ended l w, serialised C w0 ended l w -> Forall (fun x => apart c (fst (fst x))) l ->
    serialised C w0 ended ((c, [], body C c) :: l) w
| se_op : forall ended l1 c fs l2 {X} (o : op X) k f w x w',
    serialised C w0 ended (l1 ++ (c, fs, PDo o k) :: l2) w -> exec_f o f w = (x, w') ->
    serialised C w0 ended (l1 ++ (c, fs ++ [f], k x) :: l2) w'
| se_return : forall ended l1 c fs l2 r w,
    serialised C w0 ended (l1 ++ (c, fs, PRet (Ok r)) :: l2) w ->
    serialised C w0 (ended ++ [(c, fs, Some r)]) (l1 ++ l2) w
| se_abandon : forall ended l1 c fs p l2 w,
    serialised C w0 ended (l1 ++ (c, fs, p) :: l2) w ->
    serialised C w0 (ended ++ [(c, fs, None)]) (l1 ++ l2) w.

(** The same calls one after the other, each with the same failures and the same answer, or
    abandoned at the same point. *)
Inductive one_by_one (C : Crypto) : world -> list (call * list fault * option answer) -> world -> Prop :=
| ob_none : forall w, one_by_one C w [] w
| ob_call : forall c fs r w w1 l w2, run (body C c) fs w = (Ok r, w1) ->
    one_by_one C w1 l w2 -> one_by_one C w ((c, fs, Some r) :: l) w2
| ob_abandon : forall c fs w l w2, one_by_one C (crash (List.length fs) (body C c) fs w) l w2 ->
    one_by_one C w ((c, fs, None) :: l) w2.

(** The entries that no call of [l] may touch are the same in both worlds. *)
Definition unowned_same (l : list call) (w w' : world) : Prop :=
  (forall a, (forall c, In c l -> scope_of c <> OwnSession a) -> w_sess w' a = w_sess w a /\ w_ident w' a = w_ident w a) /\
  (forall id, (forall c, In c l -> prekey_named c <> Some id) -> w_prekeys w' id = w_prekeys w id) /\
  (forall a d, (forall c, In c l -> scope_of c <> OwnGroup a d) -> w_groups w' a d = w_groups w a d).
(** Both worlds hold the same. *)
Definition same_world (w w' : world) : Prop := same_device w w' /\ unowned_same [] w w'.

(** The ciphertexts returned for [a], in order. *)
Fixpoint sent_to (a : addr) (l : list (call * list fault * option answer)) : list (bytes * ciphertext) :=
  match l with
  | [] => []
  | (CEncrypt b pt, _, Some (AText (Ok c))) :: l => if addr_eqb b a then (pt, c) :: sent_to a l else sent_to a l
  | _ :: l => sent_to a l
  end.
Fixpoint gsent_to (a : addr) (d : distid) (l : list (call * list fault * option answer)) : list (bytes * senderkeymsg) :=
  match l with
  | [] => []
  | (CGEncrypt b e _ pt, _, Some (ASender (Ok m))) :: l => if addr_eqb b a && distid_eqb e d then (pt, m) :: gsent_to a d l else gsent_to a d l
  | _ :: l => gsent_to a d l
  end.
