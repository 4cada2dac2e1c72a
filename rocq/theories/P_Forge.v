(** Refused messages and the stored sessions (C71). *)
From Verif Require Import M_Base M_Crypto M_Aes M_Curve M_Proto M_Message M_Ratchet M_State M_Store M_Session M_Group
  S_Crypto S_Message S_State S_Shape S_Ratchet S_Session S_Aes S_Api S_Send S_Group S_Receive S_Curve S_Bundle S_Conv S_X3dh S_Isolation S_Forge
  P_Base P_Proto P_Curve P_State P_Shape P_Ratchet P_Message P_Aes P_Chain P_Decrypt P_Receive P_Encrypt P_Record P_Prog
  P_Init P_Send P_Bundle P_DecApi P_DecTop P_Conv P_X3dh P_DecMore P_Api P_Isolation P_History.
From Coq Require Import ZifyBool ZifyNat ZifyN.
Local Open Scope nat_scope.

(** One made-up message on a sharing store. *)
Lemma flood_step : forall C a rnd m w r, CryptoOk C -> wf_device w -> wf_prekeymsg m -> w_shared w = true ->
  w_sess w a = Some r -> w_policy w a (w_ident w a) (pm_identity m) Receiving = true ->
  (forall s, state_in s r -> ss_alice_base s <> Byte.x05 :: pm_base m) -> can_answer C w m ->
  List.length (sg_body (pm_message m)) mod 16 <> 0 ->
  exists e s, wf_state s /\ ss_alice_base s = Byte.x05 :: pm_base m /\
    run0 (decrypt_message C a rnd (CPreKey m)) w = (Err e, set_ident (set_sess w a (rc_promote r s)) a (pm_identity m)).
Proof.
  intros C a rnd m w r H [W WG] Wm Sh Er T Nb Ca Ng. destruct (can_answer_session C w m H Ca) as (s & B).
  assert (Wr : wf_record r) by (eapply (proj1 W); exact Er).
  destruct (bob_session_wf C w m s H W Wm B) as (Ws & A1 & _ & A3 & _).
  destruct (has_state_spec r m Wr Wm) as (b & Hb & Ib). destruct b.
  { destruct (proj1 Ib eq_refl) as (s' & I & E). destruct (Nb s' I E). }
  destruct (no_opens_err C rnd (rc_promote r s) (pm_message m) H (promote_wf r s Wr Ws) (wf_prekey_inner m Wm)) as (e & D).
  { intros s' pt _. apply garbage_body. exact Ng. }
  exists e, s. split; [exact Ws|]. split; [assumption|].
  cbn [decrypt_message]. unfold run0. destruct (decrypt_prekey_runs C a rnd m [] w) as [R _]. rewrite R. cbn [hd_fault tl].
  unfold prekey_body. match goal with |- run (pbind ?p ?f) [] ?w = _ => change (run (pbind p f) [] w) with (run0 (pbind p f) w) end.
  rewrite run0_bind. rewrite Er. cbn [existed loaded]. rewrite (process_new C a true r m w s T Hb B). cbn [fst snd plift].
  unfold prekey_rest. cbn [fst]. rewrite D. unfold touched. rewrite Sh. reflexivity.
Qed.

Lemma skip_skip : forall {A} n m (l : list A), skipn n (skipn m l) = skipn (m + n) l.
Proof. intros A n m. induction m as [|m IH]; intro l; [reflexivity|]. destruct l as [|x l]; [destruct n; reflexivity|]. cbn [skipn Nat.add]. apply IH. Qed.
(** The current session and the last [k] archived ones were set up by messages in [B]. *)
Definition pushed (B : list bytes) (k : nat) (r : record) : Prop :=
  (exists s, rc_current r = Some s /\ In (ss_alice_base s) B) /\
  forall b s, In b (skipn (List.length (rc_previous r) - k) (rc_previous r)) -> state_parse b = Ok s -> In (ss_alice_base s) B.
Lemma pushed_next : forall B k r s, wf_record r -> In (ss_alice_base s) B -> k < 40 -> pushed B k r -> pushed B (S k) (rc_promote r s).
Proof.
  intros B k r s Wr J Lk [(c & Ec & Jc) P]. rewrite (promote_exact r s Wr), Ec. cbn [rc_current rc_previous]. split; [exists s; auto|].
  assert (Wc : wf_state c) by exact (proj1 Wr c Ec). intros b x Jb E. cbn [rc_previous] in Jb.
  assert (Jb' : b = state_bytes c \/ In b (skipn (List.length (rc_previous r) - k) (rc_previous r))).
  { destruct Wr as (_ & L40 & _). set (P0 := rc_previous r) in *. clearbody P0. unfold keep_last in Jb.
    rewrite skipn_length, app_length in Jb. cbn [List.length] in Jb. rewrite skip_skip in Jb.
    match type of Jb with In _ (skipn ?n _) => assert (En : n = List.length P0 - k) by lia end. rewrite En, skipn_app in Jb.
    apply in_app_or in Jb. destruct Jb as [Jb|Jb]; [right; exact Jb|left].
    replace (List.length P0 - k - List.length P0) with 0 in Jb by lia. destruct Jb as [Jb|[]]. congruence. }
  destruct Jb' as [->|Jb']; [|eapply P; eassumption]. rewrite (wf_roundtrip c Wc) in E. injection E as <-. exact Jc.
Qed.
Lemma pushed_first : forall B r s, wf_record r -> In (ss_alice_base s) B -> pushed B 0 (rc_promote r s).
Proof.
  intros B r s Wr J. split; [exists s; rewrite (promote_exact r s Wr); auto|]. intros b x Jb. rewrite Nat.sub_0_r, skipn_all in Jb. destruct Jb.
Qed.
Definition after_forged (w : world) (a : addr) (r : record) (k : pubkey) : world := set_ident (set_sess w a r) a k.
Lemma after_forged_wf : forall w a r k, wf_device w -> wf_record r -> wf_device (after_forged w a r k).
Proof.
  intros w a r k [[W1 W2] W3] Wr. split; [split; [|exact W2]|exact W3]. intros b x. cbn. destruct (addr_eqb b a); [intro E; injection E as <-; exact Wr|apply W1].
Qed.
Definition base_of (x : bytes * prekeymsg) : bytes := Byte.x05 :: pm_base (snd x).
Lemma flood : forall C a k B l n w r, CryptoOk C -> wf_device w -> w_shared w = true -> w_sess w a = Some r ->
  w_policy w a (w_ident w a) k Receiving = true -> w_policy w a (Some k) k Receiving = true -> incl (map base_of l) B -> NoDup (map base_of l) ->
  (forall rnd m, In (rnd, m) l -> made_up C w k m) -> (forall s, state_in s r -> ~ In (ss_alice_base s) (map base_of l)) ->
  pushed B n r -> n + List.length l <= 40 ->
  exists w' r', all_refused C a w (map (fun x => (fst x, CPreKey (snd x))) l) w' /\ w_sess w' a = Some r' /\ wf_record r' /\ pushed B (n + List.length l) r'.
Proof.
  intros C a k B l. induction l as [|[rnd m] l IH]; intros n w r H W Sh Er T1 T2 Bl Nd Mu Nb P L.
  - exists w, r. split; [constructor|]. split; [exact Er|]. split; [eapply (proj1 (proj1 W)); exact Er|]. cbn [List.length]. rewrite Nat.add_0_r. exact P.
  - cbn [map List.length] in *. inversion Nd as [|? ? Nd1 Nd2]; subst. destruct (Mu rnd m (or_introl eq_refl)) as (Wm & Ek & Ca & Ng).
    assert (Wr : wf_record r) by (eapply (proj1 (proj1 W)); exact Er).
    destruct (flood_step C a rnd m w r H W Wm Sh Er) as (e & s & Ws & Eb & R).
    + rewrite Ek. exact T1.
    + intros s J E. apply (Nb s J). left. symmetry. exact E.
    + exact Ca.
    + exact Ng.
    + fold (after_forged w a (rc_promote r s) (pm_identity m)) in R. rewrite Ek in R.
      assert (Js : In (ss_alice_base s) B) by (rewrite Eb; apply Bl; left; reflexivity).
      destruct (IH (S n) (after_forged w a (rc_promote r s) k) (rc_promote r s)) as (w' & r' & Q1 & Q2 & Q3 & Q4).
      * exact H.
      * apply after_forged_wf; [exact W|apply promote_wf; assumption].
      * exact Sh.
      * cbn. rewrite addr_eqb_refl. reflexivity.
      * cbn. rewrite addr_eqb_refl. exact T2.
      * exact T2.
      * intros x J. apply Bl. right. exact J.
      * exact Nd2.
      * intros rnd' m' J. exact (Mu rnd' m' (or_intror J)).
      * intros x J Q. destruct (state_in_promote r s x Wr J) as [->|J']; [rewrite Eb in Q; exact (Nd1 Q)|]. apply (Nb x J'). right. exact Q.
      * apply pushed_next; [exact Wr|exact Js|lia|exact P].
      * lia.
      * exists w', r'. split; [eapply ar_cons; [exact R|exact Q1]|]. split; [exact Q2|]. split; [exact Q3|]. replace (n + S (List.length l)) with (S n + List.length l) by lia. exact Q4.
Qed.
Theorem flooded : forall C a k l w r, CryptoOk C -> wf_device w -> w_shared w = true -> w_sess w a = Some r ->
  w_policy w a (w_ident w a) k Receiving = true -> w_policy w a (Some k) k Receiving = true ->
  List.length l = 41 -> NoDup (map (fun x => pm_base (snd x)) l) ->
  (forall rnd m, In (rnd, m) l -> made_up C w k m /\ forall s, state_in s r -> ss_alice_base s <> Byte.x05 :: pm_base m) ->
  exists w' r', all_refused C a w (map (fun x => (fst x, CPreKey (snd x))) l) w' /\ w_sess w' a = Some r' /\
    forall s s', state_in s r -> state_in s' r' -> ss_alice_base s' <> ss_alice_base s.
Proof.
  intros C a k l w r H W Sh Er T1 T2 L Nd Mu. destruct l as [|[rnd m] l]; [discriminate|]. set (B := map base_of ((rnd, m) :: l)).
  assert (Nd' : NoDup B).
  { unfold B. replace (map base_of ((rnd, m) :: l)) with (map (cons Byte.x05) (map (fun x => pm_base (snd x)) ((rnd, m) :: l))) by (rewrite map_map; reflexivity).
    apply FinFun.Injective_map_NoDup; [|exact Nd]. intros x y E. injection E as E. exact E. }
  assert (NB : forall s, state_in s r -> ~ In (ss_alice_base s) B).
  { intros s J Q. unfold B in Q. apply in_map_iff in Q. destruct Q as ([rnd' m'] & Q & Jm). exact (proj2 (Mu _ _ Jm) s J (eq_sym Q)). }
  assert (Wr : wf_record r) by (eapply (proj1 (proj1 W)); exact Er).
  destruct (proj1 (Mu rnd m (or_introl eq_refl))) as (Wm & Ek & Ca & Ng). inversion Nd' as [|? ? Nd1 Nd2]; subst.
  destruct (flood_step C a rnd m w r H W Wm Sh Er T1) as (e & s & Ws & Eb & R); [exact (proj2 (Mu _ _ (or_introl eq_refl)))|exact Ca|exact Ng|].
  fold (after_forged w a (rc_promote r s) (pm_identity m)) in R. set (k := pm_identity m) in *.
  assert (Js : In (ss_alice_base s) B) by (rewrite Eb; left; reflexivity).
  destruct (flood C a k B l 0 (after_forged w a (rc_promote r s) k) (rc_promote r s)) as (w' & r' & Q1 & Q2 & Q3 & [(c & Ec & Jc) P]).
  - exact H.
  - apply after_forged_wf; [exact W|apply promote_wf; assumption].
  - exact Sh.
  - cbn. rewrite addr_eqb_refl. reflexivity.
  - cbn. rewrite addr_eqb_refl. exact T2.
  - exact T2.
  - intros x J. right. exact J.
  - exact Nd2.
  - intros rnd' m' J. exact (proj1 (Mu rnd' m' (or_intror J))).
  - intros x J Q. destruct (state_in_promote r s x Wr J) as [->|J']; [rewrite Eb in Q; exact (Nd1 Q)|]. apply (NB x J'). right. exact Q.
  - apply pushed_first; assumption.
  - injection L as L. lia.
  - exists w', r'. split; [cbn [map fst snd]; eapply ar_cons; [exact R|exact Q1]|]. split; [exact Q2|]. intros x x' J J' E. apply (NB x J). rewrite <- E.
    destruct J' as [J'|(b & Jb & Eb')]; [rewrite Ec in J'; injection J' as <-; exact Jc|].
    injection L as L. eapply P; [|exact Eb']. destruct Q3 as (_ & L40 & _). rewrite L. replace (List.length (rc_previous r') - (0 + 40)) with 0 by lia. exact Jb.
Qed.

(** Copying stores. *)
Theorem refused_copying : forall C a w l w', all_refused C a w l w' -> CryptoOk C -> wf_device w -> w_shared w = false -> Forall (fun x => wf_ciphertext (snd x)) l ->
  w_sess w' = w_sess w.
Proof.
  intros C a w l w' R H. induction R as [w|rnd c w e w1 l w2 E R IH]; intros W Sh F; [reflexivity|]. inversion F as [|? ? F1 F2]; subst. cbn [snd] in F1.
  unfold run0 in E.
  destruct (error_leaves_session C a rnd c [] w H W F1 Sh (fun x => x)) as [Q|(m & s & pt & _ & _ & _ & _ & _ & [])]; [rewrite E; discriminate|].
  rewrite E in Q. cbn [snd] in Q. rewrite <- Q. pose proof (call_writes_scope C (CDecrypt a rnd c) [] w) as [(_ & _ & _ & _ & S1 & _) _]. cbn [start] in S1. rewrite E in S1. cbn [snd] in S1.
  apply IH; [|rewrite S1; exact Sh|exact F2].
  replace w1 with (snd (run (decrypt_message C a rnd c) [] w)) by (rewrite E; reflexivity). apply run_shape; [|exact W].
  exact (calls_shape C H (CDecrypt a rnd c) F1).
Qed.
