(** A damaged session record (C98). *)
From Verif Require Import M_Base M_Crypto M_Aes M_Curve M_Proto M_Message M_Ratchet M_State M_Store M_Session M_Group
  S_Crypto S_Message S_State S_Shape S_Session S_Api S_Group S_Damaged K_Toy K_World K_Receive.
Local Open Scope nat_scope.

(** Keys of wrong lengths everywhere, and an archived session that is not a protobuf message. *)
Definition damaged_state : state :=
  mkState 3 [Byte.x05] [Byte.x05; Byte.x01] [] 7 (Some (mkPChain [] [Byte.x00] None []))
    [mkPChain (Byte.x05 :: repeat Byte.x01 32) [] (Some (mkPChainKey 9 (repeat Byte.x02 32))) [mkPMsgKey 4 [] [Byte.x01] []]]
    (Some (mkPPending 1 [] 0)) 0 0 [].
Definition damaged : world :=
  mkWorld (fun _ => Some (mkRecord (Some damaged_state) [[Byte.xff]])) (fun _ => Some [Byte.x01]) (fun _ => Some (mkPreKeyRec [] []))
    (fun _ => Some (mkPreKeyRec [] [])) (fun _ _ => Some [mkGState 0 1 0 [] [] [] []]) (mkPair (mkPriv (repeat Byte.x01 32) (repeat Byte.x01 32) 1 (repeat Byte.x01 32)) (repeat Byte.x01 32)) 12 inmem_policy true.
(** The message whose saved key has the wrong length. *)
Definition saved_msg : signal := mkSignal 3 (repeat Byte.x01 32) 0 4 (repeat Byte.x00 16) (repeat Byte.x00 40).
Definition is_err {A} (r : res A) : bool := match r with Err _ => true | _ => false end.
Definition damaged_run : bool := Eval vm_compute in
  is_err (fst (run0 (encrypt_message toy ex_addr [Byte.x00]) damaged)) &&
  is_err (fst (run0 (decrypt_message toy ex_addr [] (CSignal saved_msg)) damaged)) &&
  is_err (fst (run0 (decrypt_message toy ex_addr [] (CPreKey (junk_prekey toy))) damaged)) &&
  is_err (fst (run0 (gencrypt toy ex_addr (repeat Byte.x00 16) (repeat Byte.x00 64) [Byte.x00]) damaged)).
Lemma damaged_case : ~ wf_device damaged /\ 8 <= List.length (sg_raw saved_msg) /\ damaged_run = true.
Proof.
  split; [|split; [cbn; lia|reflexivity]]. intros [W _]. destruct W as [W _]. specialize (W ex_addr _ eq_refl).
  destruct W as [W _]. specialize (W _ eq_refl). destruct W as (_ & (k & L & E) & _). cbn in E. injection E as <-. discriminate.
Qed.
