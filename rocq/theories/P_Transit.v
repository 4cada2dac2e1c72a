(** Conversations over a byte transport (C72). *)
From Verif Require Import M_Base M_Crypto M_Aes M_Curve M_Proto M_Message M_Ratchet M_State M_Store M_Session M_Group
  S_Crypto S_Message S_State S_Shape S_Ratchet S_Session S_Aes S_Api S_Send S_Group S_GroupMsg S_Curve S_X3dh S_Receive S_Conv S_History S_Header S_Size S_Transit
  P_Base P_Proto P_Curve P_State P_Shape P_Ratchet P_Message P_Aes P_Chain P_Decrypt P_Receive P_Encrypt P_Record P_Prog P_Api
  P_Init P_Send P_Conv P_X3dh P_Conv2 P_Bundle P_DecApi P_DecTop P_DecMore P_Replay P_Trust P_History P_Size P_Header P_Group P_GroupMsg P_GroupTop P_WireTop.
Local Open Scope nat_scope.

Lemma posted_back : forall C a pt fs w c w', CryptoOk C -> wf_device w -> (size pt < 2 ^ 62)%N ->
  run (encrypt_message C a pt) fs w = (Ok c, w') -> unposted (posted c) = Ok c.
Proof.
  intros C a pt fs w c w' H W L E. destruct (sent_size _ _ _ _ _ _ _ H W L E) as (m & In_ & _ & P & Q).
  destruct c as [m'|pm|x|x]; cbn [inner] in In_; try discriminate; unfold posted, unposted; cbn [fst snd].
  - injection In_ as ->. rewrite P. reflexivity.
  - destruct Q as [_ Q]. rewrite Q. reflexivity.
Qed.

Section Transit.
Variable C : Crypto.
Hypothesis H : CryptoOk C.
Variable b : bundle.
Variable at_ : bool -> addr.

Theorem in_transit : forall base dev par keys notes x, history C at_ b base dev par keys notes -> In x notes ->
  (size (nt_text x) < 2 ^ 62)%N -> unposted (posted (nt_cipher x)) = Ok (nt_cipher x).
Proof using H.
  intros base dev par keys notes x Hy. induction Hy as
    [dev ia ib sb ob rnd fs w' WA WB Wb PA Pub Lr Eb Un Nk E
    |dev par keys notes side pt fs c w' Hy IH Sd G E
    |dev par keys notes side ep n pt c rnd fs pt' w' Hy IH I0 Rv Fr E
    |dev par keys notes side w' Hy IH Al]; try exact IH; [intros []|].
  intros [<-|J] L; [|exact (IH J L)]. cbn [nt_text nt_cipher] in *.
  destruct (history_in_step C H b at_ _ _ _ _ _ Hy) as (k & ks & St). destruct St as (_ & _ & _ & _ & _ & _ & _ & _ & Wd & _).
  exact (posted_back _ _ _ _ _ _ _ H (Wd side) L E).
Qed.

Theorem delivered_bytes : forall base dev par keys notes side ep n pt c rnd,
  history C at_ b base dev par keys notes -> In (mkNote (negb side) ep n pt c) notes -> (size pt < 2 ^ 62)%N ->
  receivable (par side) ep n -> fresh C keys (par side) ep rnd ->
  w_policy (dev side) (at_ side) (w_ident (dev side) (at_ side)) (kp_pub (w_pair (dev (negb side)))) Receiving = true ->
  exists w', run0 (receive_bytes C (at_ side) rnd (posted c)) (dev side) = (Ok pt, w').
Proof using H.
  intros base dev par keys notes side ep n pt c rnd Hy J L Rv Fr Po. unfold receive_bytes.
  pose proof (in_transit _ _ _ _ _ _ Hy J L) as P. cbn [nt_cipher] in P. rewrite P. cbn [plift]. exact (delivered C H b at_ _ _ _ _ _ side ep n pt c rnd Hy J Rv Fr Po).
Qed.

Lemma same_position : forall (l : list note) x y, NoDup (map (fun x => (nt_epoch x, nt_counter x)) l) -> In x l -> In y l ->
  (nt_epoch x, nt_counter x) = (nt_epoch y, nt_counter y) -> x = y.
Proof using.
  induction l as [|z l IH]; [intros x y _ []|]. cbn [map]. intros x y D Jx Jy E. inversion D as [|? ? N0 D']; subst.
  destruct Jx as [<-|Jx], Jy as [<-|Jy]; [reflexivity| | |exact (IH _ _ D' Jx Jy E)]; exfalso; apply N0.
  - rewrite E. apply (in_map (fun x => (nt_epoch x, nt_counter x))). exact Jy.
  - rewrite <- E. apply (in_map (fun x => (nt_epoch x, nt_counter x))). exact Jx.
Qed.
Theorem bytes_differ : forall base dev par keys notes x y, history C at_ b base dev par keys notes -> In x notes -> In y notes ->
  (size (nt_text x) < 2 ^ 62)%N -> (size (nt_text y) < 2 ^ 62)%N -> posted (nt_cipher x) = posted (nt_cipher y) -> x = y.
Proof using H.
  intros base dev par keys notes x y Hy Jx Jy Lx Ly E.
  pose proof (in_transit _ _ _ _ _ _ Hy Jx Lx) as Px. pose proof (in_transit _ _ _ _ _ _ Hy Jy Ly) as Py. rewrite E, Py in Px.
  apply (f_equal (fun r => match r with Ok c => c | _ => nt_cipher y end)) in Px.
  destruct (headers C H b at_ _ _ _ _ _ _ Hy Jx) as (m & I1 & _ & K1 & N1 & _). destruct (headers C H b at_ _ _ _ _ _ _ Hy Jy) as (m' & I2 & _ & K2 & N2 & _).
  rewrite <- Px, I2 in I1. apply (f_equal (fun r => match r with Some c => c | _ => m end)) in I1. subst m'.
  destruct (history_in_step C H b at_ _ _ _ _ _ Hy) as (k & ks & (_ & _ & Ek & (_ & Nd) & _)). rewrite <- Ek in Nd.
  apply (same_position notes); auto; [exact (proj1 (numbered C H b at_ _ _ _ _ _ Hy))|]. f_equal; [|congruence].
  apply (proj1 (NoDup_nth_error keys) Nd); [apply nth_error_Some; rewrite K1; discriminate|congruence].
Qed.
End Transit.

(** *** Groups *)
Lemma dist_posted : forall C a d sysrnd rnd fs w m w', CryptoOk C -> own_device C w -> List.length d = 16 ->
  run (new_sender_dist C a d sysrnd rnd) fs w = (Ok m, w') -> parse_dist (dm_raw m) = Ok m.
Proof.
  intros C a d sr rnd fs w m w' H O Ld E. pose proof (dist_describes _ _ _ _ _ _ _ _ _ H O E) as ((W' & _) & _).
  assert (G : forall s r, w_groups w' a d = Some (s :: r) -> dist_of_state d (s :: r) = Ok m -> parse_dist (dm_raw m) = Ok m).
  { intros s r Eg D. destruct (proj2 W' _ _ _ Eg) as (_ & _ & F). inversion F as [|? ? Ws _]; subst.
    destruct (gs_public_wf s Ws) as (k & Lk & Ep & Er). unfold dist_of_state in D. cbn [gr_state bind] in D. rewrite Er in D. cbn [bind] in D.
    destruct Ws as (V & Gc & Gi & Ls & _). unfold gs_ver in D. rewrite V in D. change ((if N.eqb 3 0 then 3 else 3) mod 256)%N with 3%N in D.
    apply (f_equal (fun r => match r with Ok c => c | _ => m end)) in D. cbn beta match in D. rewrite <- D.
    destruct (dist_wire d (gs_chain s) (gs_iter s) (gs_seed s) k Ld Gc Gi Ls Lk) as (b & _ & _ & _ & P). exact P. }
  destruct (dist_ok _ _ _ _ _ _ _ _ _ E) as [(s & r & Eg & -> & D)|(Eg & chain & seed & rnd1 & kp & rest & Rc & Rf & Gk & -> & D)].
  - exact (G s r Eg D).
  - exact (G _ _ (group_set_same w a d _) D).
Qed.
Lemma sends_posted : forall C a d w l w2, CryptoOk C -> List.length d = 16 -> gsends C a d w l w2 -> wf_device w ->
  forall pt m, In (pt, m) l -> (size pt < 2 ^ 62)%N -> parse_senderkey (sm_raw m) = Ok m.
Proof.
  intros C a d w l w2 H Ld G. induction G as [w|w rnd pt fs m w1 l w2 E G IH]; intros W p x; [intros []|]. intros [X|J] L.
  - injection X as -> ->. exact (proj2 (gsent_size _ _ _ _ _ _ _ _ _ H W Ld L E)).
  - apply (IH (eq_ind (snd (run (gencrypt C a d rnd pt) fs w)) wf_device (run_shape _ (calls_shape C H (CGEncrypt a d rnd pt) I) fs w W) w1 (f_equal snd E)) p x J L).
Qed.
Theorem transit : forall C b at_ base dev par keys notes x, CryptoOk C -> history C at_ b base dev par keys notes -> In x notes ->
  (size (nt_text x) < 2 ^ 62)%N ->
  unposted (posted (nt_cipher x)) = Ok (nt_cipher x) /\
  forall a rnd, receive_bytes C a rnd (posted (nt_cipher x)) = decrypt_message C a rnd (nt_cipher x).
Proof.
  intros C b at_ base dev par keys notes x H Hy J L. pose proof (in_transit C H b at_ _ _ _ _ _ _ Hy J L) as E. split; [exact E|].
  intros a rnd. unfold receive_bytes. rewrite E. reflexivity.
Qed.
Theorem gtransit : forall C a d sysrnd rnd fs w m w1 l w2, CryptoOk C -> own_device C w -> List.length d = 16 ->
  run (new_sender_dist C a d sysrnd rnd) fs w = (Ok m, w1) -> gsends C a d w1 l w2 ->
  (forall b, gjoin_bytes b (dm_raw m) = process_dist b m) /\
  forall pt x, In (pt, x) l -> (size pt < 2 ^ 62)%N -> forall b, greceive_bytes C b (sm_raw x) = gdecrypt C b x.
Proof.
  intros C a d sr rnd fs w m w1 l w2 H O Ld E G. split.
  - intro b. unfold gjoin_bytes. rewrite (dist_posted _ _ _ _ _ _ _ _ _ H O Ld E). reflexivity.
  - intros pt x J L b. unfold greceive_bytes. destruct (dist_describes _ _ _ _ _ _ _ _ _ H O E) as ((W1 & _) & _).
    rewrite (sends_posted _ _ _ _ _ _ H Ld G W1 pt x J L). reflexivity.
Qed.
