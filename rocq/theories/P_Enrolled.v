(** Groups in a network (C92). *)
From Verif Require Import M_Base M_Crypto M_Aes M_Curve M_Proto M_Uuid M_Message M_Ratchet M_State M_Store M_Session M_Group
  S_Crypto S_Message S_State S_Shape S_Ratchet S_Session S_Aes S_Api S_Send S_Group S_Curve S_X3dh S_Receive S_Conv S_History S_Isolation S_Atomic S_GroupMsg S_Size S_Transit S_Team S_Many S_Net S_Enrolled
  P_Base P_Message P_Prog P_Api P_Shape P_Group P_GroupSend P_GroupTop P_GroupMsg P_Member P_Mailbox P_Size P_DecApi P_History P_CrashConv P_Isolation P_Transit P_Team P_ManyLink P_Many P_ManyTop P_Net P_NetCut.
From Coq Require Import ZifyBool ZifyNat ZifyN Permutation.
Local Open Scope nat_scope.

Lemma parsed_wf : forall b m, parse_senderkey b = Ok m -> wf_senderkey m.
Proof.
  intros b m E. unfold parse_senderkey in E. destruct (Nat.ltb _ _); [discriminate|]. destruct b as [|v r]; [discriminate|].
  destruct (N.eqb_spec (version_nibble v) 3) as [V|V]; cbn [negb] in E; [|discriminate].
  destruct (dec_fields _) as [fs|]; [|discriminate]. destruct (dist_parse _) as [x|x|]; cbn [bind] in E; [|discriminate|discriminate].
  apply (f_equal (fun r => match r with Ok c => c | _ => m end)) in E. cbn beta match in E. rewrite <- E. unfold wf_senderkey. cbn [sm_chain sm_iter sm_version].
  split; [apply u32_or0|]. split; [apply u32_or0|exact V].
Qed.
Section Enrolled.
Variable C : Crypto.
Hypothesis H : CryptoOk C.

Definition same_net (dev : addr -> world) (es : list cable) : Prop := exists dev0, (forall x, dev0 x = dev x) /\ net C dev0 es.
Lemma set_ext : forall dev0 dev d w, (forall x : addr, dev0 x = dev x) -> forall x, dev_set dev0 d w x = dev_set dev d w x.
Proof. intros dev0 dev d w E x. unfold dev_set. destruct (addr_eqb x d); [reflexivity|apply E]. Qed.
Lemma net_continues : forall (init : (addr -> world) -> list cable -> Prop) dev es, (forall dev es, init dev es -> same_net dev es) -> net_from C init dev es -> same_net dev es.
Proof.
  intros init dev es I0 M. induction M as [dev es F|dev es d e b ia ib sb ob rnd fs w' M IH N L40 Wb Pa Pub Lr Nb Nk Nsb Nid E|dev es1 c es2 d e pt fs m w' M IH N Jd Je Cb Gs E
    |dev es1 c es2 d e k n pt m rnd fs pt' u w' M IH N Jd Je Jn Rv Fr Nm E Cr|dev es d c A p w' M IH G Es Lv|dev es d c A p w' M IH Sh Wc Es Nok Lv|dev es d w' M IH W' P' Se Pk].
  - exact (I0 _ _ F).
  - destruct IH as (v & Ev & K). exists (dev_set v d w'). split; [apply set_ext; exact Ev|]. eapply net_begin; rewrite ?Ev; eauto.
  - destruct IH as (v & Ev & K). exists (dev_set v d w'). split; [apply set_ext; exact Ev|]. eapply net_send; rewrite ?Ev; eauto.
  - destruct IH as (v & Ev & K). exists (dev_set v d w'). split; [apply set_ext; exact Ev|]. eapply net_receive; rewrite ?Ev; eauto.
  - destruct IH as (v & Ev & K). exists (dev_set v d w'). split; [apply set_ext; exact Ev|]. eapply net_group; rewrite ?Ev; eauto.
  - destruct IH as (v & Ev & K). exists (dev_set v d w'). split; [apply set_ext; exact Ev|]. eapply net_refused; rewrite ?Ev; eauto.
  - destruct IH as (v & Ev & K). exists (dev_set v d w'). split; [apply set_ext; exact Ev|]. apply net_other; rewrite ?Ev; auto.
Qed.
Lemma same_wf : forall dev es d, same_net dev es -> wf_device (dev d).
Proof using H. intros dev es d (v & E & M). rewrite <- E. exact (net_wf C H v es d M). Qed.
Lemma dist_sess : forall a m w, w_sess (snd (run0 (process_dist a m) w)) = w_sess w.
Proof.
  intros a m w. pose proof (call_writes_scope C (CGProcess a m) [] w) as Q. cbn [start scope_of] in Q. destruct Q as [Q _]. apply Q.
Qed.
Lemma hear_sess : forall e x w, w_sess (snd (run0 (gdecrypt C e x) w)) = w_sess w.
Proof.
  intros e x w. pose proof (call_writes_scope C (CGDecrypt e x) [] w) as Q. cbn [start scope_of] in Q. destruct Q as [Q _]. apply Q.
Qed.
(** The steps of accepting an invitation. *)
Lemma accept_runs : forall dev es cb d e k n dm m rnd, net C dev es -> In cb es -> 
  In (mkNote (negb (cb_role cb d)) k n (dm_raw dm) m) (ln_notes (cb_link cb)) ->
  (exists me dist sysrnd rnd0 fs w0 w1, own_device C w0 /\ List.length dist = 16 /\ run (new_sender_dist C me dist sysrnd rnd0) fs w0 = (Ok dm, w1)) ->
  wf_dist dm /\ dm_version dm = 3%N /\ wf_ciphertext m /\ parse_dist (dm_raw dm) = Ok dm /\
  (forall w, run0 (accept_invitation C e rnd (posted m)) w =
     let '(r, w1) := run0 (decrypt_message C e rnd m) w in match r with Ok pt => run0 (gjoin_bytes e pt) w1 | Err x => (Err x, w1) | Panic => (Panic, w1) end).
Proof using H.
  intros dev es cb d e k n dm m rnd M Jc J (me & dist & sr & rnd0 & fs & w0 & w1 & O & Ld & E).
  destruct (dist_describes _ _ _ _ _ _ _ _ _ H O E) as (_ & Tl & _). destruct (dist_small _ _ _ _ _ _ _ _ _ H O Ld E) as [Sd Wm].
  destruct (net_cable C H dev _ cb M Jc) as (at_ & v & Hy). pose proof (in_transit C H _ at_ _ _ _ _ _ _ Hy J Sd) as Tr. cbn [nt_cipher] in Tr.
  destruct (link_note C H at_ _ _ _ _ _ _ _ _ _ _ _ Hy J) as (_ & _ & _ & Wc & _).
  split; [exact Wm|]. split; [apply Tl|]. split; [exact Wc|]. split; [exact (dist_posted _ _ _ _ _ _ _ _ _ H O Ld E)|].
  intro w. unfold accept_invitation, pseq. rewrite run_bind. unfold receive_bytes. rewrite Tr. cbn [plift].
  destruct (run0 (decrypt_message C e rnd m) w) as [[pt|x|] w2]; reflexivity.
Qed.

Theorem enrolled_member : forall d e c l dev es, enrolled C d e c l dev es -> same_net dev es /\ member C e c l (dev d).
Proof using H.
  intros d e c l dev es En. induction En as [dev es1 cb es2 k n dm m rnd w u M N Jd Je Jn Rv Fr Nm Inv -> New E Cr|l dev es dev' es' En IH M Fo|l dev es n pt x r w En IH G B P E].
  - assert (Jc : In cb (es1 ++ cb :: es2)) by (apply in_or_app; right; left; reflexivity).
    destruct (accept_runs dev _ cb d e k n dm m rnd M Jc Jn Inv) as (Wm & V3 & Wc & Pd & Ar). rewrite Ar in E.
    destruct (run0 (decrypt_message C e rnd m) (dev d)) as [[pt|x|] w1] eqn:Ed; [|discriminate|discriminate].
    destruct (net_answered C H _ _ _ _ _ _ _ _ _ _ _ _ _ M Jc N Jd Je Jn Rv Fr Nm Ed) as (-> & _).
    unfold gjoin_bytes in E. rewrite Pd in E. cbn [plift] in E.
    assert (Ew : snd (run0 (process_dist e dm) w1) = w) by (rewrite E; reflexivity).
    assert (Ww : wf_device w1).
    { replace w1 with (snd (run0 (decrypt_message C e rnd m) (dev d))) by (rewrite Ed; reflexivity).
      apply run_shape; [exact (calls_shape C H (CDecrypt e rnd m) Wc)|exact (net_wf C H dev _ d M)]. }
    assert (Gw : w_groups w1 = w_groups (dev d)).
    { replace w1 with (snd (run0 (decrypt_message C e rnd m) (dev d))) by (rewrite Ed; reflexivity).
      pose proof (call_writes_scope C (CDecrypt e rnd m) [] (dev d)) as Q. cbn [start scope_of] in Q. destruct Q as [(_ & _ & _ & _ & _ & Q) _].
      destruct Q as [_ Q]. exact Q. }
    assert (Cr1 : current_ratchet w1 e u).
    { destruct Cr as (s & sc & Q & R). exists s, sc. split; [|exact R]. unfold current_session in *. rewrite <- Ew, dist_sess in Q. exact Q. }
    split.
    + exists (dev_set (dev_set dev d w1) d w). split; [intro y; apply set_twice|].
      eapply (net_group C fresh_net (dev_set dev d w1) _ d (CGProcess e dm)); [eapply net_receive; eauto|exact Wm|reflexivity|].
      rewrite set_same, <- Ew. apply run0_leaves.
    + rewrite set_same. apply (mem_start C e (channel_of dm) w1 dm w Ww Wm); [unfold tells; cbn; auto 10| |exact E].
      intros s (r & Er & J & Q). rewrite Gw in Er. apply New. exists r. auto.
  - destruct IH as [Sn Me]. assert (Sn' : same_net dev' es') by (apply (net_continues (fun a b => a = dev /\ b = es)); [intros a b [-> ->]; exact Sn|exact M]).
    split; [exact Sn'|]. eapply mem_other; [exact Me|exact (same_wf _ _ d Sn')|exact Fo].
  - destruct IH as [(v & Ev & K) Me]. unfold greceive_bytes in E. rewrite P in E. cbn [plift] in E. split.
    + exists (dev_set v d w). split; [apply set_ext; exact Ev|]. eapply (net_group C fresh_net v _ d (CGDecrypt e x)); [exact K| |reflexivity|].
      * exact (parsed_wf _ _ P).
      * rewrite Ev. exists []. left. unfold run0 in E. rewrite E. reflexivity.
    + rewrite set_same. eapply mem_arrival; eauto.
Qed.

(** Accepting works. *)
Theorem enrolling : forall dev es1 cb es2 d e k n dm m rnd, net C dev (es1 ++ cb :: es2) -> d <> e -> In d [cb_from cb; cb_to cb] -> In e [cb_from cb; cb_to cb] ->
  In (mkNote (negb (cb_role cb d)) k n (dm_raw dm) m) (ln_notes (cb_link cb)) -> receivable (ln_par (cb_link cb) (cb_role cb d)) k n ->
  all_fresh C (all_keys (links_between d e (es1 ++ cb :: es2))) (ln_par (cb_link cb) (cb_role cb d)) k (List.length (links_between d e (es1 ++ cb :: es2))) rnd ->
  (has_cable cb d -> ~ misread C (dev d) e (ln_base (cb_link cb)) m) ->
  w_policy (dev d) e (w_ident (dev d) e) (kp_pub (w_pair (dev e))) Receiving = true ->
  (exists me dist sysrnd rnd0 fs w0 w1, own_device C w0 /\ List.length dist = 16 /\ run (new_sender_dist C me dist sysrnd rnd0) fs w0 = (Ok dm, w1)) ->
  (forall s, follows (dev d) e (dm_dist dm) (dm_chain dm) s -> gs_pub s <> Byte.x05 :: dm_signing dm) ->
  exists w u, run0 (accept_invitation C e rnd (posted m)) (dev d) = (Ok tt, w) /\
    enrolled C d e (channel_of dm) [] (dev_set dev d w) (es1 ++ mkCable (cb_from cb) (cb_to cb) (link_got (cb_link cb) (cb_role cb d) k n u) :: es2).
Proof using H.
  intros dev es1 cb es2 d e k n dm m rnd M N Jd Je Jn Rv Fr Nm T Inv New.
  assert (Jc : In cb (es1 ++ cb :: es2)) by (apply in_or_app; right; left; reflexivity).
  destruct (accept_runs dev _ cb d e k n dm m rnd M Jc Jn Inv) as (Wm & V3 & Wc & Pd & Ar).
  destruct (net_delivered C H _ _ _ _ _ _ _ _ _ _ M Jc N Jd Je Jn Rv Fr Nm T) as (w1 & Ed).
  destruct (net_answered C H _ _ _ _ _ _ _ _ _ _ _ _ _ M Jc N Jd Je Jn Rv Fr Nm Ed) as (_ & _ & u & Cr & _).
  assert (Ww : wf_device w1).
  { replace w1 with (snd (run0 (decrypt_message C e rnd m) (dev d))) by (rewrite Ed; reflexivity).
    apply run_shape; [exact (calls_shape C H (CDecrypt e rnd m) Wc)|exact (net_wf C H dev _ d M)]. }
  destruct (run0 (process_dist e dm) w1) as [r w] eqn:Ep.
  assert (r = Ok tt) as ->.
  { unfold run0 in Ep. rewrite (process_dist_runs _ _ _ _ Ww Wm) in Ep. cbn [hd_fault tl] in Ep.
    destruct (w_groups w1 e (dm_dist dm)); cbn [hd_fault] in Ep; injection Ep as <- _; reflexivity. }
  assert (Ea : run0 (accept_invitation C e rnd (posted m)) (dev d) = (Ok tt, w)).
  { rewrite Ar, Ed. unfold gjoin_bytes. rewrite Pd. exact Ep. }
  exists w, u. split; [exact Ea|]. eapply en_accept; eauto.
  destruct Cr as (s & sc & Q & R). exists s, sc. split; [|exact R]. unfold current_session in *.
  replace w with (snd (run0 (process_dist e dm) w1)) by (rewrite Ep; reflexivity). rewrite dist_sess. exact Q.
Qed.
(** Every message is delivered, once. *)
Theorem enrolled_delivered : forall d e l dev es me dist sysrnd rnd0 fs w0 dm w1 k sent w2 pt x,
  own_device C w0 -> List.length dist = 16 -> run (new_sender_dist C me dist sysrnd rnd0) fs w0 = (Ok dm, w1) ->
  gtries C me dist k w1 sent w2 -> k <= 2000 -> (dm_iter dm + N.of_nat k < 4294967296)%N -> In (pt, x) sent -> (size pt < 2 ^ 62)%N ->
  enrolled C d e (channel_of dm) l dev es -> (forall n, accepted l n -> (n < dm_iter dm + 2000)%N) ->
  exists r w, run0 (greceive_bytes C e (sm_raw x)) (dev d) = (r, w) /\ enrolled C d e (channel_of dm) (l ++ [(sm_iter x, pt, r)]) (dev_set dev d w) es /\
    (accepted l (sm_iter x) /\ r = Err EDuplicate \/ ~ accepted l (sm_iter x) /\ r = Ok pt) /\
    (dm_iter dm <= sm_iter x < dm_iter dm + 2000)%N.
Proof using H.
  intros d e l dev es me dist sr rnd0 fs w0 dm w1 k sent w2 pt x O Ld E G Lk Bk J Sz En Lt.
  destruct (dist_describes _ _ _ _ _ _ _ _ _ H O E) as (O1 & Tl & Sp & _).
  destruct (gincreasing _ _ _ _ _ _ _ G _ _ _ _ H O1 Sp Bk) as [Gm _].
  destruct (In_nth_error _ _ J) as [j Ej]. destruct (Gm j pt x Ej) as (Q1 & Q2 & Q3 & Q4).
  assert (Gn : genuine C (channel_of dm) (sm_iter x) pt x).
  { split; [cbn; lia|]. cbn [channel_of cn_key cn_first cn_chain cn_dist cn_signing]. destruct Tl as (_ & -> & _). exact Q4. }
  pose proof (tries_posted C me dist k w1 sent w2 H Ld G (proj1 O1) pt x J Sz) as P.
  destruct (enrolled_member _ _ _ _ _ _ En) as [_ Me].
  destruct (run0 (greceive_bytes C e (sm_raw x)) (dev d)) as [r w] eqn:Er. exists r, w. split; [reflexivity|].
  assert (B : (sm_iter x + 1 < 2 ^ 32)%N) by (change (2 ^ 32)%N with 4294967296%N; lia).
  split; [eapply en_arrival; eauto|]. split; [|lia].
  unfold greceive_bytes in Er. rewrite P in Er. cbn [plift] in Er.
  destruct (delivered_once C H (channel_of dm) e l (dev d) _ _ _ r w Me Gn B Er) as [D1 D2].
  destruct (accepted_dec l (sm_iter x)) as [A|A]; [left; auto|right]. split; [exact A|]. apply D2; [exact A|left; cbn; lia|].
  intros n' An. specialize (Lt n' An). lia.
Qed.
End Enrolled.
