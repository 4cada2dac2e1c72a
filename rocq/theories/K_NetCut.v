(** A network with either kind of stores. *)
From Verif Require Import M_Base M_Crypto M_Aes M_Curve M_Message M_Ratchet M_State M_Store M_Session
  S_Crypto S_Send S_Session S_X3dh S_Receive S_Conv S_History S_Spent S_Atomic S_Many S_Net P_Shape P_History P_DecApi P_ManyLink P_Many P_ManyTop P_Net P_NetCut K_Toy K_World K_Conv K_Net.
Local Open Scope nat_scope.

Lemma netcut_case : forall sh, exists dev es c m w', net toy dev es /\ List.length es = 2 /\ In c es /\ cb_from c = at_a /\ cb_to c = at_b /\ w_shared (dev at_b) = sh /\ w_sess (dev at_b) at_a = None /\
  In (mkNote (negb (cb_role c at_b)) 1 0 (str "hello") m) (ln_notes (cb_link c)) /\ ahead (ln_par (cb_link c) (cb_role c at_b)) 1 0 /\
  all_fresh toy (all_keys (links_between at_b at_a es)) (ln_par (cb_link c) (cb_role c at_b)) 1 (List.length (links_between at_b at_a es)) (b32 Byte.x62) /\
  ~ has_cable c at_b /\ run (decrypt_message toy at_a (b32 Byte.x62) m) [FBefore] (dev at_b) = (Err EStore, w') /\
  ~ misread toy w' at_a (ln_base (cb_link c)) m /\ w_policy w' = all_trusted.
Proof.
  intro sh. destruct (net_story_stores sh) as (dev & sig & m & M0 & _ & _ & Po & Sh & _ & Em). destruct (story_ready sig m) as (R1 & R2 & R3 & R4).
  assert (M : net toy dev [alice_cable sig m; carol_cable sig]) by (apply (net_more toy (at_first sh)); [intros d e [-> ->]; apply three_fresh|exact M0]).
  assert (Jc : In (alice_cable sig m) [alice_cable sig m; carol_cable sig]) by (left; reflexivity).
  assert (No : forall r t, w_sess (dev at_b) at_a = Some r -> state_in t r -> False).
  { intros r t Er Jt. destruct (net_pairs toy toy_ok _ _ at_b at_a M) as (dv & K & E1 & E2); [discriminate|]. destruct (many_inv toy toy_ok _ _ _ K) as (Wd & _ & _ & _ & _ & Ss & _).
    destruct (Ss true t) as (l & Jl & Hl & _).
    { apply sess_in; [apply Wd|]. rewrite E1. exists r. split; [exact Er|exact Jt]. }
    change (In l [turned false (cb_link (alice_cable sig m))]) in Jl. destruct Jl as [<-|[]]. destruct Hl as [Q|Q]; [discriminate|apply Q; reflexivity]. }
  exists dev, [alice_cable sig m; carol_cable sig], (alice_cable sig m), m, (dev at_b).
  split; [exact M|]. split; [reflexivity|]. split; [exact Jc|]. split; [reflexivity|]. split; [reflexivity|]. split; [apply Sh|]. split; [apply Em|]. split; [exact R1|].
  split; [right; split; [reflexivity|discriminate]|]. split; [exact R3|]. split; [exact R4|]. split; [|split].
  - destruct (net_cable toy toy_ok dev _ _ M Jc) as (at_ & v & Hy). destruct (link_note toy toy_ok at_ _ _ _ _ _ _ _ _ _ _ _ Hy R1) as (sg & _ & _ & _ & _ & Cs).
    destruct Cs as [[_ Q]|[_ (pm & -> & _)]]; [contradiction Q; reflexivity|]. cbn [decrypt_message]. destruct (decrypt_prekey_runs toy at_a (b32 Byte.x62) pm [FBefore] (dev at_b)) as [R _]. rewrite R. reflexivity.
  - intros (sg & r & t & pt & _ & Q & Jt & _). exact (No r t Q Jt).
  - apply Po.
Qed.
