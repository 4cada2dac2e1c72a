(** A group set up over pairwise conversations (C84). *)
From Verif Require Import M_Base M_Crypto M_Aes M_Curve M_Proto M_Uuid M_Message M_Ratchet M_State M_Store M_Session M_Group
  S_Crypto S_Message S_State S_Shape S_Ratchet S_Session S_Aes S_Api S_Send S_Group S_Curve S_X3dh S_Receive S_Conv S_History S_GroupMsg S_Size S_Wire S_Uuid S_Transit S_Isolation S_Team
  P_Base P_Proto P_Uuid P_Message P_Prog P_Api P_Shape P_Group P_GroupSend P_GroupTop P_GroupMsg P_Member P_Mailbox P_WireTop P_Size P_DecApi P_History P_CrashConv P_Isolation P_Transit.
From Coq Require Import ZifyBool ZifyNat ZifyN Permutation.
Local Open Scope nat_scope.

Lemma run_bind : forall {A B} (p : prog A) (f : res A -> prog B) w, run0 (pbind p f) w = run0 (f (fst (run0 p w))) (snd (run0 p w)).
Proof.
  intros A B p f. unfold run0. induction p as [r|X o k IH]; intro w; cbn [pbind run]; [reflexivity|].
  cbn [hd_fault tl]. destruct (exec_f o FNone w) as [x w']. apply IH.
Qed.
Lemma dist_small : forall C a d sysrnd rnd fs w m w', CryptoOk C -> own_device C w -> List.length d = 16 ->
  run (new_sender_dist C a d sysrnd rnd) fs w = (Ok m, w') -> (size (dm_raw m) < 2 ^ 62)%N /\ wf_dist m.
Proof.
  intros C a d sr rnd fs w m w' H O Ld E. pose proof (dist_describes _ _ _ _ _ _ _ _ _ H O E) as ((W' & _) & _).
  assert (G : forall s r, w_groups w' a d = Some (s :: r) -> dist_of_state d (s :: r) = Ok m -> (size (dm_raw m) < 2 ^ 62)%N /\ wf_dist m).
  { intros s r Eg D. destruct (proj2 W' _ _ _ Eg) as (_ & _ & F). inversion F as [|? ? Ws _]; subst.
    destruct (gs_public_wf s Ws) as (k & Lk & Ep & Er). unfold dist_of_state in D. cbn [gr_state bind] in D. rewrite Er in D. cbn [bind] in D.
    destruct Ws as (V & Gc & Gi & Ls & _). unfold gs_ver in D. rewrite V in D. change ((if N.eqb 3 0 then 3 else 3) mod 256)%N with 3%N in D.
    apply (f_equal (fun r => match r with Ok c => c | _ => m end)) in D. cbn beta match in D. rewrite <- D.
    split.
    - unfold new_dist. cbn [dm_raw]. rewrite size_cons. unfold enc_fields, dist_fields. cbn [map List.concat].
      assert (Lu : List.length (uuid_string d) = 36%nat) by (rewrite uuid_string_canonical by exact Ld; apply canonical_length; exact Ld).
      assert (Gu : go_slice (uuid_string d)) by (unfold go_slice; rewrite Lu; reflexivity).
      assert (Gk : go_slice (gs_seed s)) by (unfold go_slice; rewrite Ls; reflexivity).
      destruct (key_slice k Lk) as [G1 E1]. unfold go_u32 in Gc, Gi.
      rewrite !size_app, !num_size, !len_size by (lia || assumption). unfold num_field, len_field.
      pose proof (vsize_64 (gs_chain s) ltac:(lia)). pose proof (vsize_64 (gs_iter s) ltac:(lia)). rewrite E1.
      replace (size (uuid_string d)) with 36%N by (unfold size; rewrite Lu; reflexivity). replace (size (gs_seed s)) with 32%N by (unfold size; rewrite Ls; reflexivity).
      pose proof (vsize_64 36 eq_refl). pose proof (vsize_64 32 eq_refl). pose proof (vsize_64 33 eq_refl). change (size []) with 0%N. change (2 ^ 62)%N with 4611686018427387904%N. lia.
    - unfold wf_dist, new_dist. cbn. auto 10. }
  destruct (dist_ok _ _ _ _ _ _ _ _ _ E) as [(s & r & Eg & -> & D)|(Eg & chain & seed & rnd1 & kp & rest & Rc & Rf & Gk & -> & D)].
  - exact (G s r Eg D).
  - exact (G _ _ (group_set_same w a d _) D).
Qed.
Lemma tries_posted : forall C a d k w l w2, CryptoOk C -> List.length d = 16 -> gtries C a d k w l w2 -> wf_device w ->
  forall pt m, In (pt, m) l -> (size pt < 2 ^ 62)%N -> parse_senderkey (sm_raw m) = Ok m.
Proof.
  intros C a d k w l w2 H Ld G. induction G as [w|k w rnd pt fs m w1 l w2 E G IH|k w rnd pt fs r w1 l w2 E Nr G IH|k w rnd pt fs c l w2 G IH|k w w1 l w2 O1 Eg G IH]; intros W p x.
  - intros [].
  - intros [X|J] L.
    + injection X as -> ->. exact (proj2 (gsent_size _ _ _ _ _ _ _ _ _ H W Ld L E)).
    + apply (IH (eq_ind (snd (run (gencrypt C a d rnd pt) fs w)) wf_device (run_shape _ (calls_shape C H (CGEncrypt a d rnd pt) I) fs w W) w1 (f_equal snd E)) p x J L).
  - apply IH. replace w1 with (snd (run (gencrypt C a d rnd pt) fs w)) by (rewrite E; reflexivity). apply run_shape; [exact (calls_shape C H (CGEncrypt a d rnd pt) I)|exact W].
  - apply IH. apply (crash_shape _ (calls_shape C H (CGEncrypt a d rnd pt) I)). exact W.
  - apply IH. apply O1.
Qed.

Section Hear.
Variable C : Crypto.
Hypothesis H : CryptoOk C.
Variable a : addr.
Variable c : channel.
Definition pos (x : bytes * senderkeymsg) : N := sm_iter (snd x).
Definition usable (x : bytes * senderkeymsg) : Prop :=
  genuine C c (pos x) (fst x) (snd x) /\ (pos x + 1 < 4294967296)%N /\ (pos x < cn_first c + 2000)%N /\ parse_senderkey (sm_raw (snd x)) = Ok (snd x).
Lemma accepted_snoc : forall l n pt x j, accepted (l ++ [(n, pt, Ok x)]) j <-> accepted l j \/ j = n.
Proof using.
  intros l n pt x j. unfold accepted. split.
  - intros (p & y & J). apply in_app_iff in J. destruct J as [J|[J|[]]]; [left; eauto|right; congruence].
  - intros [(p & y & J)| ->]; [exists p, y; apply in_app_iff; auto|exists pt, x; apply in_app_iff; right; left; reflexivity].
Qed.
Lemma hear_perm : forall order l w, member C a c l w -> Forall usable order -> NoDup (map pos order) ->
  (forall x, In x order -> ~ accepted l (pos x)) -> (forall n, accepted l n -> (n < cn_first c + 2000)%N) ->
  exists w', hear_all C a w (map (fun x => sm_raw (snd x)) order) = (map (fun x => Ok (fst x)) order, w').
Proof using H.
  induction order as [|x order IH]; intros l w M U D Na Lt; [exists w; reflexivity|].
  inversion U as [|? ? Ux U']; subst. inversion D as [|? ? Dx D']; subst. destruct Ux as (G & B & Lx & P).
  cbn [map hear_all]. unfold greceive_bytes at 1. rewrite P. cbn [plift].
  destruct (run0 (gdecrypt C a (snd x)) w) as [r w1] eqn:E.
  destruct (delivered_once C H c a l w _ _ _ r w1 M G B E) as [_ Dl].
  assert (r = Ok (fst x)) as ->.
  { apply Dl; [apply Na; left; reflexivity|left; lia|]. intros n' An. specialize (Lt n' An). destruct G as [G _]. unfold pos in *. lia. }
  destruct (IH (l ++ [(pos x, fst x, Ok (fst x))]) w1) as (w2 & E2).
  - eapply mem_arrival; eauto.
  - exact U'.
  - exact D'.
  - intros y J. rewrite accepted_snoc. intros [Q|Q]; [exact (Na y (or_intror J) Q)|]. apply Dx. rewrite <- Q. apply (in_map pos). exact J.
  - intros n. rewrite accepted_snoc. intros [Q| ->]; auto.
  - rewrite E2. exists w2. reflexivity.
Qed.
End Hear.

Theorem team : forall C b at_ base dev par keys notes side ep n c rnd me d sysrnd rnd0 fs w0 dm w1 k l w2 order, CryptoOk C ->
  history C at_ b base dev par keys notes -> In (mkNote (negb side) ep n (dm_raw dm) c) notes ->
  receivable (par side) ep n -> fresh C keys (par side) ep rnd ->
  w_policy (dev side) (at_ side) (w_ident (dev side) (at_ side)) (kp_pub (w_pair (dev (negb side)))) Receiving = true ->
  own_device C w0 -> List.length d = 16 -> run (new_sender_dist C me d sysrnd rnd0) fs w0 = (Ok dm, w1) ->
  (forall s, follows (dev side) (at_ side) d (dm_chain dm) s -> gs_pub s <> Byte.x05 :: dm_signing dm) ->
  gtries C me d k w1 l w2 -> k <= 2000 -> (dm_iter dm + N.of_nat k < 4294967296)%N -> (forall pt x, In (pt, x) l -> (size pt < 2 ^ 62)%N) ->
  Permutation order l ->
  exists w, run0 (accept_invitation C (at_ side) rnd (posted c)) (dev side) = (Ok tt, w) /\
  exists w', hear_all C (at_ side) w (map (fun x => sm_raw (snd x)) order) = (map (fun x => Ok (fst x)) order, w').
Proof.
  intros C b at_ base dev par keys notes side ep n c rnd me d sr rnd0 fs w0 dm w1 k l w2 order H Hy J Rv Fr T O Ld E New G Lk Bk Sz Pm.
  destruct (dist_describes _ _ _ _ _ _ _ _ _ H O E) as (O1 & Tl & Sp & _). destruct (dist_small _ _ _ _ _ _ _ _ _ H O Ld E) as [Sd Wm].
  destruct (delivered_bytes C H b at_ _ _ _ _ _ side ep n _ c rnd Hy J Sd Rv Fr T) as (w & Ew).
  pose proof (in_transit C H b at_ _ _ _ _ _ _ Hy J Sd) as Tr. cbn [nt_cipher] in Tr.
  assert (Wd : forall y, wf_device (dev y)).
  { destruct (history_in_step C H b at_ _ _ _ _ _ Hy) as (? & ? & (_ & _ & _ & _ & _ & _ & _ & _ & Wd & _)). exact Wd. }
  assert (Ec : run0 (decrypt_message C (at_ side) rnd c) (dev side) = (Ok (dm_raw dm), w)).
  { unfold receive_bytes in Ew. rewrite Tr in Ew. exact Ew. }
  assert (Wc : wf_ciphertext c).
  { destruct (history_in_step C H b at_ _ _ _ _ _ Hy) as (ks & kl & St). destruct St as (So & _ & _ & _ & _ & _ & _ & _ & _ & _ & _ & _ & Nt).
    rewrite Forall_forall in Nt. destruct (Nt _ J) as (_ & Gn & m & Wh & Fm).
    exact (proj2 (note_wf C H b ks kl par _ m So Wh Gn) _ _ _ Fm). }
  assert (Ww : wf_device w).
  { replace w with (snd (run0 (decrypt_message C (at_ side) rnd c) (dev side))) by (rewrite Ec; reflexivity).
    apply run_shape; [exact (calls_shape C H (CDecrypt (at_ side) rnd c) Wc)|apply Wd]. }
  assert (Gw : w_groups w = w_groups (dev side)).
  { replace w with (snd (run0 (decrypt_message C (at_ side) rnd c) (dev side))) by (rewrite Ec; reflexivity).
    pose proof (call_writes_scope C (CDecrypt (at_ side) rnd c) [] (dev side)) as Q. cbn [start scope_of] in Q. destruct Q as [Q _].
    destruct Q as (_ & _ & _ & _ & _ & Q). destruct Q as [_ Q]. exact Q. }
  destruct (run0 (process_dist (at_ side) dm) w) as [r w'] eqn:Ep.
  assert (r = Ok tt) as ->.
  { unfold run0 in Ep. rewrite (process_dist_runs _ _ _ _ Ww Wm) in Ep. cbn [hd_fault tl] in Ep.
    destruct (w_groups w (at_ side) (dm_dist dm)); cbn [hd_fault] in Ep; injection Ep as <- _; reflexivity. }
  exists w'. split.
  { unfold accept_invitation, pseq. rewrite run_bind, Ew. cbn [fst snd plift]. unfold gjoin_bytes. rewrite (dist_posted _ _ _ _ _ _ _ _ _ H O Ld E). exact Ep. }
  assert (M : member C (at_ side) (channel_of dm) [] w').
  { apply (mem_start C (at_ side) (channel_of dm) w dm w' Ww Wm); [| |exact Ep].
    - destruct Tl as (T1 & T2 & T3). unfold tells. cbn. repeat split; exact T1.
    - cbn. intros s (r & Er & I0 & Q). rewrite Gw in Er. destruct Tl as (_ & Td & _). apply New. exists r. rewrite <- Td. auto. }
  destruct (gincreasing _ _ _ _ _ _ _ G _ _ _ _ H O1 Sp Bk) as [Gm Gi].
  assert (Us : forall x, In x l -> usable C (channel_of dm) x).
  { intros [pt x] I0. destruct (In_nth_error _ _ I0) as [j Ej]. destruct (Gm j pt x Ej) as (Q1 & Q2 & Q3 & Q4).
    unfold usable, pos. cbn [fst snd]. split; [|split; [lia|split; [cbn; lia|]]].
    - split; [cbn; lia|]. cbn [channel_of cn_key cn_first cn_chain cn_dist cn_signing]. destruct Tl as (_ & -> & _). exact Q4.
    - apply (tries_posted C me d k w1 l w2 H Ld G (proj1 O1) pt x I0). exact (Sz pt x I0). }
  assert (Dl : NoDup (map pos l)).
  { apply NoDup_nth_error. intros i j Li Eij. rewrite map_length in Li.
    rewrite !nth_error_map in Eij. destruct (nth_error l i) as [[p1 x1]|] eqn:E1; [|apply nth_error_Some in Li; contradiction].
    destruct (nth_error l j) as [[p2 x2]|] eqn:E2; [|discriminate]. cbn in Eij. injection Eij as Eij. unfold pos in Eij. cbn in Eij.
    destruct (Nat.lt_trichotomy i j) as [Q|[Q|Q]]; [|exact Q|].
    - pose proof (Gi _ _ _ _ _ _ Q E1 E2). lia.
    - pose proof (Gi _ _ _ _ _ _ Q E2 E1). lia. }
  apply (hear_perm C H (at_ side) (channel_of dm) order [] w' M).
  - rewrite Forall_forall. intros x I0. apply Us. apply (Permutation_in x Pm I0).
  - apply (Permutation_NoDup (Permutation_map pos (Permutation_sym Pm)) Dl).
  - intros x _ (? & ? & []).
  - intros j (? & ? & []).
Qed.
