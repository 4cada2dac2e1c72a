(** Properties of single group states that every execution preserves. *)
From Verif Require Import M_Base M_Crypto M_Aes M_Curve M_Proto M_Uuid M_Message M_Ratchet M_State M_Store M_Session M_Group
  S_Crypto S_Message S_State S_Shape S_Ratchet S_Session S_Curve S_Aes S_Wire S_Uuid S_Api S_Group S_GroupMsg S_Isolation
  P_Base P_Proto P_Curve P_State P_Shape P_Ratchet P_Message P_Aes P_Chain P_Decrypt P_Init P_Record P_Verify P_CryptoTop P_Prog P_Group P_Api P_Isolation P_Bundle
  P_History P_GroupMsg P_Member.
From Coq Require Import ZifyBool ZifyNat ZifyN.
Local Open Scope nat_scope.

Lemma pall_and : forall (ok1 ok2 : forall X, op X -> Prop) (an1 an2 : forall X, op X -> res X -> Prop) {A} (p : prog A),
  pall ok1 an1 p -> pall ok2 an2 p -> pall (fun X o => ok1 X o /\ ok2 X o) (fun X o x => an1 X o x /\ an2 X o x) p.
Proof.
  intros ok1 ok2 an1 an2 A p. induction p as [r|X o k IH]; intros P1 P2; [exact I|]. destruct P1 as [P1 Q1]. destruct P2 as [P2 Q2].
  split; [split; assumption|]. intros x [A1 A2]. apply IH; auto.
Qed.
Lemma pall_weaken : forall (ok1 ok2 : forall X, op X -> Prop) (an1 an2 : forall X, op X -> res X -> Prop) {A} (p : prog A),
  (forall X o, ok1 X o -> ok2 X o) -> (forall X o x, an2 X o x -> an1 X o x) -> pall ok1 an1 p -> pall ok2 an2 p.
Proof.
  intros ok1 ok2 an1 an2 A p W1 W2. induction p as [r|X o k IH]; intros P1; [exact I|]. destruct P1 as [P1 Q1].
  split; [apply W1; exact P1|]. intros x A1. apply IH. apply Q1. apply W2. exact A1.
Qed.

Section Keep.
Variable C : Crypto.
Hypothesis H : CryptoOk C.
Variable P : call -> Prop.
Variable Q : addr -> distid -> gstate -> Prop.
Hypothesis K_process : forall a m, wf_dist m -> P (CGProcess a m) -> Q a (dm_dist m) (told m).
Hypothesis K_new : forall a d sysrnd rnd chain seed rnd1 kp rest, P (CGNew a d sysrnd rnd) -> random_chain_id sysrnd = Ok chain ->
  read_full 32 rnd = (Ok seed, rnd1) -> gen_keypair C rnd1 = (Ok kp, rest) ->
  Q a d (new_gstate 3 chain 0 seed (kp_pub kp) (Some (kp_priv kp))).
Hypothesis K_encrypt : forall a d rnd pt s msg s', P (CGEncrypt a d rnd pt) -> wf_gstate s -> Q a d s ->
  gencrypt_state C rnd d s pt = Ok (msg, s') -> Q a d s'.
Hypothesis K_decrypt : forall a m s, wf_senderkey m -> P (CGDecrypt a m) -> wf_gstate s -> gs_chain s = sm_chain m -> Q a (sm_dist m) s ->
  Q a (sm_dist m) (gnext C s m).

Definition keep_ok : forall X, op X -> Prop := fun X o =>
  match o with
  | OStoreGroup a d r | OTouchGroup a d r => Forall (Q a d) r
  | _ => True
  end.
Definition keep_ans : forall X, op X -> res X -> Prop := fun X o =>
  match o in op T return res T -> Prop with
  | OLoadGroup a d => fun x => forall r, x = Ok (Some r) -> wf_grecord r /\ Forall (Q a d) r
  | _ => fun _ => True
  end.
Definition kall {A} (p : prog A) : Prop := pall keep_ok keep_ans p.
Definition keeps (w : world) : Prop := forall a d r, w_groups w a d = Some r -> Forall (Q a d) r.

Lemma set_group_keeps : forall w a d r, keeps w -> Forall (Q a d) r -> keeps (set_group w a d r).
Proof.
  intros w a d r K F b e x. cbn. destruct (addr_eqb b a) eqn:E1; cbn [andb]; [destruct (distid_eqb e d) eqn:E2|]; [|apply K..].
  apply addr_eqb_eq in E1. apply distid_eqb_spec in E2. subst. intro E. injection E as <-. exact F.
Qed.
Lemma keep_exec : forall X (o : op X) f w, wf_device w /\ keeps w -> shape_ok X o /\ keep_ok X o ->
  (wf_device (snd (exec_f o f w)) /\ keeps (snd (exec_f o f w))) /\
  shape_ans X o (fst (exec_f o f w)) /\ keep_ans X o (fst (exec_f o f w)).
Proof.
  intros X o f w [W K] [S1 S2]. destruct (shape_exec X o f w W S1) as [W' A'].
  assert (K0 : keeps (snd (exec o w))).
  { destruct o; cbn [exec snd]; try exact K; cbn [keep_ok] in S2.
    - destruct (w_shared w); exact K.
    - apply set_group_keeps; auto.
    - destruct (w_shared w); [apply set_group_keeps; auto|exact K]. }
  split; [split; [exact W'|]|].
  - destruct (exec_f_cases X o f w) as [E|E]; rewrite E; [exact K|exact K0].
  - split; [exact A'|]. destruct o; cbn [keep_ans]; try exact I. intros r E. cbn [shape_ans] in A'. specialize (A' r E). split; [exact A'|].
    unfold exec_f in E. cbn [fallible] in E. destruct f; cbn [exec fst snd] in E; [injection E as E; apply (K a d r E)|discriminate..].
Qed.

Lemma keepl_forall : forall {A} (R : A -> Prop) n l, Forall R l -> Forall R (keep_last n l).
Proof. intros. apply keep_last_forall. assumption. Qed.
Lemma process_dist_keep : forall a m, wf_dist m -> P (CGProcess a m) -> kall (process_dist a m).
Proof.
  intros a m Wm Pm. unfold process_dist. apply pall_do; [exact I|]. intros lr A. cbn [keep_ans] in A.
  cbv zeta. set (r := match lr with Some r => r | None => [] end). fold (told m).
  assert (W : wf_grecord r /\ Forall (Q a (dm_dist m)) r).
  { unfold r. destruct lr; [apply A; reflexivity|]. split; [apply wf_grecord_nil|constructor]. }
  destruct W as [W F]. rewrite (gr_add_dist m r Wm W). cbn [plift].
  assert (F' : Forall (Q a (dm_dist m)) (after_dist m r)).
  { unfold after_dist. apply Forall_app. split; [apply keepl_forall; apply forall_filter; exact F|]. constructor; [|constructor].
    destruct (gr_find (dm_chain m) r) as [e|] eqn:Ef; [|apply K_process; auto]. apply gr_find_spec in Ef; [|apply W].
    destruct (pub_equal _ _); [rewrite Forall_forall in F; apply F; apply Ef|apply K_process; auto]. }
  destruct lr; [apply pall_do; [exact F'|intros _ _]|]; (apply pall_do; [exact F'|intros; exact I]).
Qed.
Lemma new_sender_dist_keep : forall a d sysrnd rnd, P (CGNew a d sysrnd rnd) -> kall (new_sender_dist C a d sysrnd rnd).
Proof.
  intros a d sysrnd rnd Pm. unfold new_sender_dist. apply pall_do; [exact I|]. intros lr _.
  destruct lr as [r|]; [apply pall_lift; intros; exact I|].
  apply pall_lift. intros chain Ec.
  destruct (read_full 32 rnd) as [[seed| |] rnd1] eqn:Er; try exact I.
  apply pall_lift. intros kp Ek. destruct (gen_keypair C rnd1) as [o rest] eqn:G. cbn [fst] in Ek. subst o.
  apply pall_lift. intros r E. apply pall_do; [|intros; apply pall_lift; intros; exact I].
  cbn [keep_ok]. unfold gr_add in E. destruct (gs_public _) as [key| |]; cbn [bind] in E; [|discriminate..].
  cbn in E. injection E as <-. constructor; [|constructor]. eapply K_new; eauto.
Qed.
Lemma gencrypt_keep : forall a d rnd pt, P (CGEncrypt a d rnd pt) -> kall (gencrypt C a d rnd pt).
Proof.
  intros a d rnd pt Pm. unfold gencrypt. apply pall_do; [exact I|]. intros lr A. cbn [keep_ans] in A.
  destruct lr as [r|]; [|exact I]. specialize (A r eq_refl). destruct r as [|s r]; [exact I|]. destruct A as [W F].
  cbn [gr_state plift]. apply pall_lift. intros [msg s'] E. inversion F as [|? ? F1 F2]; subst.
  destruct W as (_ & _ & W). inversion W as [|? ? W1 _]; subst.
  assert (F' : Forall (Q a d) (gr_set_first s' (s :: r))) by (constructor; [eapply K_encrypt; eauto|exact F2]).
  apply pall_do; [exact F'|]. intros _ _. apply pall_do; [exact F'|]. intros; exact I.
Qed.
Lemma gdecrypt_keep : forall a m, wf_senderkey m -> P (CGDecrypt a m) -> kall (gdecrypt C a m).
Proof.
  intros a m Wm Pm. unfold gdecrypt. apply pall_do; [exact I|]. intros lr A. cbn [keep_ans] in A.
  destruct lr as [r|]; [|exact I]. specialize (A r eq_refl). destruct A as [W F]. destruct (gr_find (sm_chain m) r) as [s|] eqn:Ef; [|exact I].
  pose proof Ef as Ef'. apply gr_find_spec in Ef'; [|apply W]. destruct Ef' as [J Ec]. pose proof W as (_ & _ & Fw). rewrite Forall_forall in Fw.
  destruct (negb (sm_version m =? gs_ver s)%N); [exact I|]. apply pall_lift. intros key _. apply pall_lift. intros valid _.
  destruct (negb valid); [exact I|]. pose proof (K_decrypt a m s Wm Pm (Fw s J) Ec) as Kd. unfold gnext in Kd.
  destruct (gmessage_key C s (sm_iter m)) as [o s'] eqn:E. cbn [snd] in Kd.
  assert (F' : Forall (Q a (sm_dist m)) (gr_set (sm_chain m) s' r)).
  { assert (Qs : Q a (sm_dist m) s') by (apply Kd; rewrite Forall_forall in F; apply F; exact J). clear -F Qs.
    induction F as [|x r Fx F IH]; cbn [gr_set]; [constructor|]. destruct (sm_chain m =? gs_chain x)%N; constructor; auto. }
  cbv zeta. apply pall_do; [exact F'|]. intros _ _. apply pall_lift. intros mk _. apply pall_lift. intros pt _.
  apply pall_do; [exact F'|]. intros; exact I.
Qed.
Lemma in_sess_keep : forall a X (o : op X), in_sess a X o -> keep_ok X o.
Proof. intros a X o J. destruct o; cbn in *; auto; contradiction. Qed.
Lemma calls_keep : forall c, wf_call c -> P c -> thread_all keep_ok keep_ans (start C c).
Proof.
  intros c W Pc. destruct c as [a rnd b|a pt|a rnd m|a m|a d sr rnd|a d rnd pt|a m].
  1-3: match goal with |- thread_all _ _ (start C ?c) => pose proof (calls_scope C c) as S1 end;
    cbn [start thread_all scope_of in_scope] in *;
    (eapply pall_weaken; [apply (in_sess_keep a)|intros X o x _; exact I|exact S1]).
  - apply process_dist_keep; auto.
  - apply new_sender_dist_keep; auto.
  - apply gencrypt_keep; auto.
  - apply gdecrypt_keep; auto.
Qed.

Lemma reachable_keep : forall ts w, reachable_with C P (ts, w) -> wf_device w /\ keeps w.
Proof.
  intros ts w R.
  set (tall := thread_all (fun X o => shape_ok X o /\ keep_ok X o) (fun X o x => shape_ans X o x /\ keep_ans X o x)).
  assert (G : Forall tall (fst (ts, w)) /\ wf_device (snd (ts, w)) /\ keeps (snd (ts, w))); [|apply G].
  induction R as [w0 W|cf cf' R IH St].
  - cbn [fst snd]. split; [constructor|]. destruct W as (E1 & E2 & E3 & E4). split; [split; [split; [|split]|]; auto|].
    + intros a r E. rewrite E1 in E. discriminate.
    + intros a d r E. rewrite E2 in E. discriminate.
    + intros a d r E. rewrite E2 in E. discriminate.
  - destruct St as [cl ts0 w0 Wc Pc|ts1 ts2 A X o k f w0 x w' E|ts1 t ts2 w0|ts0 w0 w' E]; cbn [fst snd] in *; destruct IH as [F Iw].
    + split; [|exact Iw]. constructor; [|exact F]. pose proof (calls_shape C H cl Wc) as S1. pose proof (calls_keep cl Wc Pc) as S2.
      unfold tall. destruct (start C cl) as [A p]. cbn [thread_all] in *. apply pall_and; auto.
    + apply Forall_app in F. destruct F as [F1 F2]. inversion F2 as [|t l T F3]; subst.
      cbn [tall thread_all] in T. destruct T as [T1 T2]. pose proof (keep_exec X o f w0 Iw T1) as [I1 I2].
      rewrite E in I1, I2. cbn [fst snd] in I1, I2. split; [|exact I1].
      apply Forall_app. split; [exact F1|]. constructor; [|exact F3]. exact (T2 x I2).
    + apply Forall_app in F. destruct F as [F1 F2]. inversion F2; subst. split; [|exact Iw]. apply Forall_app. auto.
    + split; [exact F|]. destruct Iw as [((W1 & W2 & W3) & W4) K]. destruct E as (E1 & E2 & E3 & E4 & E5). split; [split; [split; [|split]|]; auto|].
      * rewrite E1. exact W1.
      * rewrite E2. exact W4.
      * unfold keeps. rewrite E2. exact K.
Qed.
End Keep.

Lemma reachable_any : forall C cf, reachable C cf -> reachable_with C (fun _ => True) cf.
Proof.
  intros C cf R. induction R as [w W|c c' R IH S1]; [apply rw_init; exact W|]. eapply rw_step; [exact IH|].
  destruct S1; [apply sw_call; auto|eapply sw_op; eauto|apply sw_crash|apply sw_env; auto].
Qed.
Lemma reachable_less : forall C P cf, reachable_with C P cf -> reachable C cf.
Proof.
  intros C P cf R. induction R as [w W|c c' R IH S1]; [apply reach_init; exact W|]. eapply reach_step; [exact IH|].
  destruct S1; [apply step_call; auto|eapply step_op; eauto|apply step_crash|apply step_env; auto].
Qed.
