(** Concrete case for C97: Bob's line carries rubbish, a repeated message, and one whose storing fails. *)
From Verif Require Import M_Base M_Crypto M_Aes M_Curve M_Uuid M_Message M_Ratchet M_State M_Store M_Session M_Group
  S_Crypto S_Message S_State S_Session S_Api S_Group S_GroupMsg S_Size S_Atomic S_Transit S_Team S_Conv S_History S_Many S_Net S_Enrolled S_GroupAttack
  P_Base P_GroupMsg P_GroupSend P_GroupTop P_NetShared P_GroupAttack K_Toy K_World K_Receive K_Conv K_Group K_Net K_Enrolled.
From Coq Require Import ZifyBool ZifyNat ZifyN.
Local Open Scope nat_scope.

Lemma rubbish_refused : forall C c sent, ~ group_forgery C c sent [Byte.x00].
Proof. intros C c sent (m & P & _). discriminate P. Qed.
Lemma sent_no_forgery : forall C dm k sent pt y, CryptoOk C -> sent_after C dm k sent -> In (pt, y) sent -> ~ group_forgery C (channel_of dm) sent (sm_raw y).
Proof.
  intros C dm k sent pt y H Se J (m & P & _ & _ & _ & N). destruct (sent_all C H _ _ _ Se _ _ J) as (_ & _ & _ & Py).
  rewrite Py in P. injection P as <-. exact (N _ _ J eq_refl).
Qed.
Lemma group_attack_case : forall sh : bool, exists dm sent wb w' x1 x2 x3 x4,
  sent_after toy dm 4 sent /\ sent = [(str "one", x1); ([], x2); (str "three", x3); (str "four", x4)] /\ member toy gx_addr (channel_of dm) [] wb /\ w_shared wb = sh /\
  siege toy gx_addr wb [[Byte.x00]; sm_raw x3; sm_raw x3; sm_raw x1] w' /\
  forall x, In x [[Byte.x00]; sm_raw x3; sm_raw x3; sm_raw x1] -> ~ group_forgery toy (channel_of dm) sent x.
Proof.
  intro sh. destruct gx_created as (m & w1 & E & Sd). destruct (dist_describes _ _ _ _ _ _ _ _ _ toy_ok (alice_own true) E) as (O1 & T & Sp & New & _).
  destruct (New eq_refl) as [_ Ei].
  destruct (gx_send toy gx_addr gx_dist gx_rnd [str "one"; []; str "three"; str "four"] w1 toy_ok (proj1 O1) Sd gx_rnd_len) as (sent & w2 & G & Em).
  pose proof (told_wf _ _ _ _ _ _ _ _ _ toy_ok (alice_own true) E) as Wm.
  destruct (process_ok gx_addr m (bob_world 3 sh) (bob_wf 3 sh) Wm) as (wb & Eb).
  assert (M0 : member toy gx_addr (channel_of m) [] wb).
  { eapply mem_start; [apply (bob_wf 3 sh)|exact Wm| | |exact Eb].
    - cbn [channel_of cn_dist cn_chain cn_signing cn_first cn_key]. destruct T as (T1 & T2 & T3). split; [exact T1|]. split; [reflexivity|]. auto.
    - intros s (r & Q & _). discriminate. }
  assert (Sh : w_shared wb = sh).
  { replace wb with (snd (run (process_dist gx_addr m) [] (bob_world 3 sh))) by (unfold run0 in Eb; rewrite Eb; reflexivity). rewrite P_NetShared.run_store. reflexivity. }
  destruct sent as [|[p1 x1] [|[p2 x2] [|[p3 x3] [|[p4 x4] [|]]]]]; try discriminate Em. injection Em as -> -> -> ->.
  assert (Se : sent_after toy m 4 [(str "one", x1); ([], x2); (str "three", x3); (str "four", x4)]).
  { exists gx_addr, gx_dist, gx_sys, gx_rnd, [], (alice_world true), w1, w2. split; [apply alice_own|]. split; [reflexivity|]. split; [exact E|].
    split; [exact (sends_tries _ _ _ _ _ _ G)|]. split; [rewrite Ei; reflexivity|]. intros pt y J. cbn [In] in J.
    destruct J as [Q|[Q|[Q|[Q|[]]]]]; injection Q as <- _; reflexivity. }
  set (a := gx_addr) in *.
  eexists m, _, wb, _, x1, x2, x3, x4. split; [exact Se|]. split; [reflexivity|]. split; [exact M0|]. split; [exact Sh|]. split.
  - eapply siege_cons; [exists []; left; reflexivity|]. eapply siege_cons; [exists [FNone; FNone; FBefore]; left; reflexivity|].
    eapply siege_cons; [exists []; right; exists 2; reflexivity|]. eapply siege_cons; [exists []; left; reflexivity|]. apply siege_nil.
  - intros x [<-|[<-|[<-|[<-|[]]]]].
    + apply rubbish_refused.
    + eapply sent_no_forgery; [exact toy_ok|exact Se|]. right; right; left; reflexivity.
    + eapply sent_no_forgery; [exact toy_ok|exact Se|]. right; right; left; reflexivity.
    + eapply sent_no_forgery; [exact toy_ok|exact Se|]. left; reflexivity.
Qed.
Lemma group_siege_case : forall sh : bool, exists dm sent x1 x2 dev es w', sent_after toy dm 2 sent /\ sent = [(str "one", x1); (str "two", x2)] /\
  enrolled toy at_b at_a (channel_of dm) [] dev es /\ leaves (greceive_bytes toy at_a (sm_raw x2)) (dev at_b) w' /\ ~ group_forgery toy (channel_of dm) sent (sm_raw x2).
Proof.
  intro sh. destruct (enrolled_case sh) as (dev & es1 & cb & es2 & dm & m & w1 & sent & w2 & w & u & _ & _ & _ & _ & _ & _ & _ & _ & _ & O & E & _ & G & Em & B & _ & En).
  destruct sent as [|[p1 x1] [|[p2 x2] [|]]]; try discriminate Em. injection Em as -> ->.
  assert (Se : sent_after toy dm 2 [(str "one", x1); (str "two", x2)]).
  { exists gx_addr, gx_dist, gx_sys, gx_rnd, [], (alice_world true), w1, w2. split; [exact O|]. split; [reflexivity|]. split; [exact E|]. split; [exact G|]. split; [exact B|].
    intros pt y J. cbn [In] in J. destruct J as [Q|[Q|[]]]; injection Q as <- _; reflexivity. }
  eexists dm, _, x1, x2, _, _, _. split; [exact Se|]. split; [reflexivity|]. split; [exact En|]. split; [exists []; left; reflexivity|].
  eapply sent_no_forgery; [exact toy_ok|exact Se|]. right; left; reflexivity.
Qed.
