(** Failures and crashes on stores that share what they hold (C91). *)
From Verif Require Import M_Base M_Crypto M_Aes M_Curve M_Proto M_Message M_Ratchet M_State M_Store M_Session M_Group
  S_Crypto S_Message S_State S_Shape S_Ratchet S_Session S_Aes S_Api S_Send S_Group S_Curve S_X3dh S_Receive S_Conv S_History S_Isolation S_Atomic S_Apart S_Spent S_Many S_Net
  P_Base P_State P_Shape P_Ratchet P_Chain P_Decrypt P_Receive P_Encrypt P_Record P_Prog P_Api
  P_Init P_Send P_Conv P_X3dh P_Conv2 P_Bundle P_DecApi P_DecMore P_History P_Isolation P_Apart P_Atomic P_CrashConv P_Redeliver P_ManyRec P_ManyFail P_ManyApi P_ManyLink P_Many P_ManySteps P_ManyTop P_Net P_NetCut P_Locked P_DecTop.
From Coq Require Import ZifyBool ZifyNat ZifyN Permutation.
Local Open Scope nat_scope.

(** The same device with a user who trusts everyone. *)
Definition trusting (w : world) : world :=
  mkWorld (w_sess w) (w_ident w) (w_prekeys w) (w_signed w) (w_groups w) (w_pair w) (w_reg w) (fun _ _ _ _ => true) (w_shared w).
Definition granted {X} (o : op X) : X -> Prop :=
  match o in op T return T -> Prop with OIsTrusted _ _ _ => fun x => x = true | _ => fun _ => True end.
Lemma granted_dec : forall X (o : op X) x, granted o x \/ ~ granted o x.
Proof. intros X o x. destruct o; cbn [granted]; auto. destruct x; [left; reflexivity|right; discriminate]. Qed.
Lemma exec_trust : forall X (o : op X) w, exists x, exec o (trusting w) = (x, trusting (snd (exec o w))) /\ granted o x /\ (granted o (fst (exec o w)) -> x = fst (exec o w)).
Proof.
  intros X o w. destruct o; cbn [exec granted fst snd]; try (eexists; split; [reflexivity|split; [exact I|reflexivity]]).
  - exists tt. split; [|auto]. cbn [trusting w_shared]. destruct (w_shared w); reflexivity.
  - exists true. split; [reflexivity|]. split; [reflexivity|]. intro E. symmetry. exact E.
  - exists tt. split; [|auto]. cbn [trusting w_shared]. destruct (w_shared w); reflexivity.
Qed.

(** From the first session write on only one record is written, and only the user's distrust can end the call early. *)
Definition harmless (b : bool) (a : addr) (r : record) {X} (o : op X) : Prop :=
  match o with OStoreSession a' r' | OTouchSession a' r' => a' = a /\ r' = r | OStoreGroup _ _ _ | OTouchGroup _ _ _ => False | ODeletePreKey _ => b = true | _ => True end.
Definition wrote {X} (o : op X) : option (addr * record) := match o with OStoreSession a r | OTouchSession a r => Some (a, r) | _ => None end.
Definition plain {X} (o : op X) : bool :=
  match o with OStoreSession _ _ | OTouchSession _ _ | OStoreGroup _ _ _ | OTouchGroup _ _ _ | ODeletePreKey _ => false | _ => true end.
Fixpoint calm (b : bool) (a : addr) (r : record) {A} (p : prog A) : Prop :=
  match p with
  | PRet x => b = true -> is_ok x
  | @PDo _ X o k => harmless b a r o /\ forall x : X, (granted o x -> calm b a r (k (Ok x))) /\ (~ granted o x -> exists e, k (Ok x) = PRet (Err e))
  end.
Fixpoint once (b : bool) {A} (p : prog A) : Prop :=
  match p with
  | PRet _ => True
  | @PDo _ X o k => forall x : X, (granted o x -> match wrote o with Some (a, r) => calm b a r (k (Ok x)) | None => plain o = true /\ once b (k (Ok x)) end) /\
      (~ granted o x -> exists e, k (Ok x) = PRet (Err e))
  end.
Lemma same_trusting : forall w w', same_records w w' -> same_records w (trusting w').
Proof. intros w w' [A B]. split; [exact A|exact B]. Qed.
Lemma exec_harmless : forall X (o : op X) b a r w, harmless b a r o -> w_sess w a = Some r -> same_records w (snd (exec o w)).
Proof.
  intros X o b a r w Hm E. destruct o; cbn [exec snd harmless] in *; try (split; reflexivity); try contradiction.
  - destruct Hm as [-> ->]. split; [|reflexivity]. intro x. cbn. destruct (addr_eqb x a) eqn:Q; [|reflexivity]. apply addr_eqb_eq in Q. congruence.
  - destruct Hm as [-> ->]. destruct (w_shared w); [|split; reflexivity]. split; [|reflexivity]. intro x. cbn. destruct (addr_eqb x a) eqn:Q; [|reflexivity]. apply addr_eqb_eq in Q. congruence.
Qed.
Definition kept_keys (w w' : world) : Prop := (forall id, w_prekeys w' id = w_prekeys w id) /\ (forall id, w_signed w' id = w_signed w id).
Lemma exec_keys : forall X (o : op X) a r w, harmless false a r o -> kept_keys w (snd (exec o w)).
Proof. intros X o a r w Hm. destruct o; cbn [exec snd harmless] in *; try discriminate Hm; try contradiction; try (split; reflexivity); destruct (w_shared w); split; reflexivity. Qed.
Lemma calm_run : forall b a r {A} (p : prog A), calm b a r p -> forall w, w_sess w a = Some r ->
  (b = true -> is_ok (fst (run0 p (trusting w)))) /\ same_records w (snd (run0 p (trusting w))) /\ forall m, same_records w (crash m p [] w) /\ (b = false -> kept_keys w (crash m p [] w)).
Proof.
  intros b a r A p. induction p as [x|X o k IH]; intros P w E.
  - split; [exact P|]. split; [apply same_trusting, same_refl|]. intro m. rewrite crash_ret. split; [apply same_refl|split; reflexivity].
  - destruct P as [Hm P]. pose proof (exec_harmless X o b a r w Hm E) as Sr.
    destruct (exec_trust X o w) as (x & Ex & Gx & Gd). unfold run0 in *. cbn [run hd_fault tl]. rewrite exec_f_ok, Ex. cbn [fst snd].
    assert (E' : w_sess (snd (exec o w)) a = Some r) by (rewrite (proj1 Sr); exact E).
    destruct (IH (Ok x) (proj1 (P x) Gx) (snd (exec o w)) E') as (A1 & A2 & A3).
    assert (Kk : b = false -> kept_keys w (snd (exec o w))) by (intros ->; eapply exec_keys; exact Hm).
    split; [exact A1|]. split; [eapply same_trans; eauto|]. intros [|m]; [split; [apply same_refl|split; reflexivity]|]. cbn [crash pstep hd_fault tl]. rewrite exec_f_ok.
    destruct (granted_dec X o (fst (exec o w))) as [G|G].
    + rewrite <- (Gd G). destruct (A3 m) as [B1 B2]. split; [eapply same_trans; eauto|]. intro Eb. destruct (Kk Eb) as [K1 K2]. destruct (B2 Eb) as [K3 K4]. split; intro; congruence.
    + destruct (proj2 (P _) G) as (e & Q). rewrite Q, crash_ret. auto.
Qed.
Lemma exec_plain : forall X (o : op X) w, plain o = true -> untouched w (snd (exec o w)).
Proof. intros X o w Pl. destruct o; try discriminate Pl; cbn [exec snd]; repeat split; reflexivity. Qed.
Lemma exec_wrote : forall X (o : op X) w a r, w_shared w = true -> wrote o = Some (a, r) -> w_sess (snd (exec o w)) a = Some r.
Proof.
  intros X o w a r Sh W. destruct o; try discriminate W; cbn [wrote] in W; injection W as -> ->; cbn [exec snd]; rewrite ?Sh; cbn; rewrite addr_eqb_refl; reflexivity.
Qed.
Lemma once_run : forall b {A} (p : prog A), once b p -> forall w, w_shared w = true -> forall m,
  untouched w (crash m p [] w) \/ (b = true -> is_ok (fst (run0 p (trusting w)))) /\ same_records (snd (run0 p (trusting w))) (crash m p [] w) /\ (b = false -> kept_keys w (crash m p [] w)).
Proof.
  intros b A p. induction p as [x|X o k IH]; intros P w Sh m.
  - left. rewrite crash_ret. apply un_refl.
  - destruct m as [|m]; [left; apply un_refl|].
    destruct (exec_trust X o w) as (x & Ex & Gx & Gd). unfold run0 in *. cbn [run hd_fault tl]. rewrite exec_f_ok, Ex. cbn [fst snd crash pstep hd_fault tl]. rewrite exec_f_ok.
    assert (Sh' : w_shared (snd (exec o w)) = true) by (rewrite exec_shared; exact Sh).
    pose proof (proj1 (P x) Gx) as Px. pose proof (proj2 (P (fst (exec o w)))) as Pn. destruct (wrote o) as [[a r]|] eqn:W.
    + right. pose proof (exec_wrote X o w a r Sh W) as Es. destruct (calm_run b a r _ Px _ Es) as (A1 & A2 & A3). split; [exact A1|].
      assert (Kk : kept_keys w (snd (exec o w))) by (destruct o; try discriminate W; cbn [exec snd]; rewrite ?Sh; split; reflexivity).
      destruct (granted_dec X o (fst (exec o w))) as [G|G].
      * rewrite <- (Gd G). destruct (A3 m) as [B1 B2]. split; [eapply same_trans; [apply same_sym; exact A2|exact B1]|]. intro Eb. destruct Kk as [K1 K2]. destruct (B2 Eb) as [K3 K4]. split; intro; congruence.
      * destruct (Pn G) as (e & Q). rewrite Q, crash_ret. split; [apply same_sym; exact A2|auto].
    + destruct Px as [Pl Px]. pose proof (exec_plain X o w Pl) as Un. destruct (granted_dec X o (fst (exec o w))) as [G|G].
      * rewrite <- (Gd G). destruct (IH (Ok x) Px _ Sh' m) as [E|(E1 & E2 & E3)]; [left; eapply un_trans; eauto|right]. split; [exact E1|]. split; [exact E2|].
        intro Eb. destruct (E3 Eb) as [K3 K4]. assert (Kk : kept_keys w (snd (exec o w))) by (destruct o; try discriminate Pl; split; reflexivity). destruct Kk as [K1 K2]. split; intro; congruence.
      * destruct (Pn G) as (e & Q). rewrite Q, crash_ret. left. exact Un.
Qed.
Lemma once_leaves : forall b {A} (p : prog A) w w', strict p -> once b p -> w_shared w = true -> leaves p w w' ->
  untouched w w' \/ (b = true -> is_ok (fst (run0 p (trusting w)))) /\ same_records (snd (run0 p (trusting w))) w' /\ (b = false -> kept_keys w w').
Proof.
  intros b A p w w' St On Sh (fs & [->|(n & ->)]).
  - destruct (run_reduces p St fs w) as [m ->]. apply once_run; assumption.
  - destruct (crash_reduces p St fs w n) as [m ->]. apply once_run; assumption.
Qed.

(** ** The calls *)
Lemma calm_do : forall b a r {A X} (o : op X) (k : X -> prog A), harmless b a r o -> (forall x, granted o x -> calm b a r (k x)) -> (forall x, ~ granted o x -> exists e, k x = PRet (Err e)) -> calm b a r (pdo o k).
Proof. intros b a r A X o k Hm K1 K2. split; [exact Hm|]. intro x. split; [apply K1|apply K2]. Qed.
Lemma once_plain : forall b {A X} (o : op X) (k : X -> prog A), plain o = true -> (forall x, granted o x -> once b (k x)) -> (forall x, ~ granted o x -> exists e, k x = PRet (Err e)) -> once b (pdo o k).
Proof. intros b A X o k Pl K1 K2 x. split; [|apply K2]. intro G. destruct o; try discriminate Pl; (split; [reflexivity|apply K1; exact G]). Qed.
Lemma once_write : forall b {A X} (o : op X) (k : X -> prog A) a r, wrote o = Some (a, r) -> (forall x, calm b a r (k x)) -> once b (pdo o k).
Proof. intros b A X o k a r W K x. split; [intros _; rewrite W; apply K|]. intro G. destruct o; try discriminate W; contradiction (G I). Qed.
Lemma once_lift : forall b {A X} (r : res X) (k : X -> prog A), (forall x, r = Ok x -> once b (k x)) -> once b (plift r k).
Proof. intros b A X [x|e|] k K; cbn; auto. Qed.
Ltac quietly :=
  repeat match goal with
  | |- calm _ _ _ (pdo (OIsTrusted _ _ _) _) => apply calm_do; [exact I|intros ? ->; cbn [negb]|intros [|] Z; [contradiction Z; reflexivity|eexists; reflexivity]]
  | |- calm _ _ _ (pdo _ _) => apply calm_do; [first [exact I|reflexivity|split; reflexivity]|intros ? _|intros ? Z; contradiction (Z I)]
  | |- calm _ _ _ (PRet _) => intros Q; first [discriminate Q|eexists; reflexivity]
  | |- once _ (pdo (OIsTrusted _ _ _) _) => apply once_plain; [reflexivity|intros ? ->; cbn [negb]|intros [|] Z; [contradiction Z; reflexivity|eexists; reflexivity]]
  | |- once _ (pdo (OTouchSession _ _) _) => eapply once_write; [reflexivity|intros ?]
  | |- once _ (pdo (OStoreSession _ _) _) => eapply once_write; [reflexivity|intros ?]
  | |- once _ (pdo _ _) => apply once_plain; [reflexivity|intros ? _|intros ? Z; contradiction (Z I)]
  | |- once _ (plift _ _) => apply once_lift; intros ? ?
  | |- once _ (PRet _) => exact I
  | |- _ (if ?b then _ else _) => destruct b
  | |- _ (match ?x with _ => _ end) => destruct x eqn:?
  | |- _ (let _ := _ in _) => cbv zeta
  end.
Lemma once_encrypt : forall C a pt, once true (encrypt_message C a pt).
Proof. intros. unfold encrypt_message. quietly. Qed.
Lemma once_bundle : forall C a rnd b, once true (process_bundle C a rnd b).
Proof. intros. unfold process_bundle. quietly. Qed.
Lemma once_signal : forall C a rnd m, once false (decrypt_signal C a rnd m).
Proof. intros. unfold decrypt_signal. quietly. Qed.

Lemma calm_seq : forall a r {A B} (p : prog A) (f : A -> prog B), calm false a r p -> (forall x, calm false a r (f x)) -> calm false a r (pseq p f).
Proof.
  intros a r A B p f P F. unfold pseq. induction p as [x|X o k IH]; cbn [pbind].
  - destruct x; cbn [plift]; [apply F|intro Q; discriminate Q..].
  - destruct P as [Hm P]. split; [exact Hm|]. intro x. destruct (P x) as [P1 P2]. split; [intro G; apply IH, P1, G|].
    intro G. destruct (P2 G) as (e & ->). exists e. reflexivity.
Qed.
Lemma once_seq : forall {A B} (p : prog A) (f : A -> prog B), once false p -> (forall x, once false (f x)) -> (forall a r x, calm false a r (f x)) -> once false (pseq p f).
Proof.
  intros A B p f P F1 F2. unfold pseq. induction p as [x|X o k IH]; cbn [pbind].
  - apply once_lift. auto.
  - intro x. destruct (P x) as [P1 P2]. split.
    + intro G. specialize (P1 G). destruct (wrote o) as [[a r]|]; [apply calm_seq; auto|]. destruct P1 as [Pl P1]. split; [exact Pl|apply IH; exact P1].
    + intro G. destruct (P2 G) as (e & ->). exists e. reflexivity.
Qed.
Lemma once_process : forall C a ex r m, once false (process_prekey C a ex r m).
Proof.
  intros. unfold process_prekey. quietly. apply once_seq; [|intros [r' id]; quietly|intros ? ? [r' id]; quietly].
  unfold process_prekey_v3. quietly.
Qed.
Lemma once_rest : forall C a rnd ex m x, once true (prekey_rest C a rnd ex m x).
Proof. intros. unfold prekey_rest. quietly. Qed.

Lemma run_store : forall {A} (p : prog A) fs w, w_shared (snd (run p fs w)) = w_shared w.
Proof.
  intros A p. induction p as [x|X o k IH]; intros fs w; cbn [run]; [reflexivity|]. pose proof (exec_shared X o w) as Q. unfold exec_f. destruct (exec o w) as [x w'].
  cbn [snd] in Q. destruct (fallible o); [destruct (hd_fault fs)|]; rewrite IH; auto.
Qed.
(** A program that stops is inside its first part or past it. *)
Lemma crash_bind : forall {A B} (p : prog A) (f : res A -> prog B) w m,
  (exists m', crash m (pbind p f) [] w = crash m' p [] w) \/ exists m', crash m (pbind p f) [] w = crash m' (f (fst (run0 p w))) [] (snd (run0 p w)).
Proof.
  intros A B p f. induction p as [r|X o k IH]; intros w m; cbn [pbind].
  - right. exists m. reflexivity.
  - destruct m as [|m]; [left; exists 0; reflexivity|]. unfold run0. cbn [run crash pstep hd_fault tl]. rewrite exec_f_ok.
    destruct (IH (Ok (fst (exec o w))) (snd (exec o w)) m) as [(m' & E)|(m' & E)]; [left; exists (S m')|right; exists m']; cbn [crash pstep hd_fault tl]; rewrite ?exec_f_ok; exact E.
Qed.
(** What a call answers for one user it answers for one who trusts everyone. *)
Lemma calm_trusting : forall b a r {A} (p : prog A), calm b a r p -> forall w x, fst (run0 p w) = Ok x -> run0 p (trusting w) = (Ok x, trusting (snd (run0 p w))).
Proof.
  intros b a r A p. induction p as [y|X o k IH]; intros P w x; unfold run0 in *; cbn [run hd_fault tl fst snd]; [intros ->; reflexivity|].
  destruct P as [_ P]. destruct (exec_trust X o w) as (z & Ex & Gx & Gd). rewrite !exec_f_ok, Ex. cbn [fst snd]. intro E.
  destruct (granted_dec X o (fst (exec o w))) as [G|G].
  - rewrite (Gd G) in *. apply IH; [apply P; exact G|exact E].
  - destruct (proj2 (P _) G) as (e & Q). rewrite Q in E. discriminate E.
Qed.
Lemma once_trusting : forall b {A} (p : prog A), once b p -> forall w x, fst (run0 p w) = Ok x -> run0 p (trusting w) = (Ok x, trusting (snd (run0 p w))).
Proof.
  intros b A p. induction p as [y|X o k IH]; intros P w x; [unfold run0; cbn [run fst snd]; intros ->; reflexivity|].
  unfold run0 in *; cbn [run hd_fault tl fst snd]. destruct (exec_trust X o w) as (z & Ex & Gx & Gd). rewrite !exec_f_ok, Ex. cbn [fst snd]. intro E.
  destruct (granted_dec X o (fst (exec o w))) as [G|G].
  - rewrite (Gd G) in *. pose proof (proj1 (P _) G) as P1. destruct (wrote o) as [[a r]|].
    + apply (calm_trusting b a r); assumption.
    + apply IH; [apply P1|exact E].
  - destruct (proj2 (P _) G) as (e & Q). rewrite Q in E. discriminate E.
Qed.

(** What a cut-off decryption of a pre-key message leaves of the records: those before it, those after it, or the
    session of the message added and nothing read. *)
Lemma prekey_cut : forall C a rnd m w w' pt w2, w_shared w = true -> run0 (decrypt_prekey C a rnd m) (trusting w) = (Ok pt, w2) -> leaves (decrypt_prekey C a rnd m) w w' ->
  untouched w w' \/ same_records w2 w' \/
  exists r s, w_sess w a = Some r /\ rc_has_state r (pm_version m) (pub_bytes (pm_base m)) = Ok false /\ bob_session C w m s /\
    same_records (set_sess w a (rc_promote r s)) w'.
Proof.
  intros C a rnd m w w' pt w2 Sh E (fs & Lv).
  assert (Q : exists k, w' = crash k (decrypt_prekey C a rnd m) [] w).
  { pose proof (strict_calls C (CDecrypt a rnd (CPreKey m))) as St. destruct Lv as [->|(n & ->)]; [exact (run_reduces _ St fs w)|exact (crash_reduces _ St fs w n)]. }
  destruct Q as ([|k] & ->); [left; apply un_refl|]. rewrite (proj2 (decrypt_prekey_runs C a rnd m [] w)). cbn [hd_fault tl].
  pose proof E as E0. unfold run0 in E0. rewrite (proj1 (decrypt_prekey_runs C a rnd m [] (trusting w))) in E0. cbn [hd_fault tl] in E0. change (w_sess (trusting w) a) with (w_sess w a) in E0.
  unfold prekey_body in *. set (ex := existed (w_sess w a)) in *. set (r := loaded (w_sess w a)) in *. set (p0 := process_prekey C a ex r m) in *.
  change (run0 (pbind p0 (fun z => plift z (prekey_rest C a rnd ex m))) (trusting w) = (Ok pt, w2)) in E0. rewrite run0_bind in E0.
  destruct (run0 p0 (trusting w)) as [[[r1 id]|e|] w1] eqn:E1; cbn [fst snd plift] in E0; [|discriminate..].
  assert (Half : forall v, same_records w1 v -> kept_keys w v -> untouched w v \/ exists r s, w_sess w a = Some r /\ rc_has_state r (pm_version m) (pub_bytes (pm_base m)) = Ok false /\ bob_session C w m s /\
    same_records (set_sess w a (rc_promote r s)) v).
  { intros v R [K1 K2]. destruct (process_inv _ _ _ _ _ _ _ _ _ _ E1) as (_ & [(Hs & -> & -> & ->)|(Hs & -> & s & Bs & -> & ->)]).
    - left. split; [exact R|]. auto.
    - unfold ex, r, touched in *. destruct (w_sess w a) as [r0|] eqn:Er; cbn [existed loaded andb] in *.
      + right. exists r0, s. split; [reflexivity|]. split; [exact Hs|]. split; [exact Bs|]. cbn [trusting w_shared] in R. rewrite Sh in R. exact R.
      + left. split; [exact R|]. auto. }
  assert (Mid : forall n, untouched w (crash n p0 [] w) \/ exists r s, w_sess w a = Some r /\ rc_has_state r (pm_version m) (pub_bytes (pm_base m)) = Ok false /\ bob_session C w m s /\
    same_records (set_sess w a (rc_promote r s)) (crash n p0 [] w)).
  { intro n. destruct (once_run false p0 (once_process C a ex r m) w Sh n) as [U|(_ & R & Kk)]; [left; exact U|]. rewrite E1 in R. apply Half; [exact R|apply Kk; reflexivity]. }
  destruct (crash_bind p0 (fun z => plift z (prekey_rest C a rnd ex m)) w k) as [(n & ->)|(n & ->)].
  { destruct (Mid n) as [U|U]; auto. }
  assert (Fin : exists n, snd (run0 p0 w) = crash n p0 [] w).
  { destruct (crash_run p0 [] w) as (n0 & Q). exists n0. symmetry. exact Q. }
  destruct (run0 p0 w) as [[[r1' id']|e|] w3] eqn:E3; cbn [fst snd plift] in *.
  2,3: rewrite crash_ret; destruct Fin as (n' & ->); destruct (Mid n') as [U|U]; auto.
  pose proof (once_trusting false p0 (once_process C a ex r m) w (r1', id')) as T. rewrite E3 in T. specialize (T eq_refl). cbn [snd] in T. rewrite E1 in T. injection T as <- <- ->.
  assert (Sh3 : w_shared w3 = true). { pose proof (run_store p0 [] w) as Q. unfold run0 in E3. rewrite E3 in Q. cbn [snd] in Q. congruence. }
  destruct (once_run true (prekey_rest C a rnd ex m (r1, id)) (once_rest _ _ _ _ _ _) w3 Sh3 n) as [U|(_ & R & _)].
  - destruct Fin as (n' & F). destruct U as (Sr & P1 & P2). destruct (once_run false p0 (once_process C a ex r m) w Sh n') as [U'|(_ & R' & Kk)].
    + left. rewrite <- F in U'. eapply un_trans; [exact U'|split; [exact Sr|auto]].
    + rewrite E1, <- F in R'. rewrite <- F in Kk. destruct (Kk eq_refl) as [K1 K2].
      assert (Kv : kept_keys w (crash n (prekey_rest C a rnd ex m (r1, id)) [] w3)) by (split; intro; rewrite ?P1, ?P2; auto).
      destruct (Half _ (same_trans _ _ _ R' Sr) Kv) as [Z|Z]; auto.
  - right. left. rewrite E0 in R. exact R.
Qed.

(** ** Networks *)
Section Shared.
Variable C : Crypto.
Hypothesis H : CryptoOk C.

Lemma trusting_wf : forall w, wf_device w -> wf_device (trusting w).
Proof. intros w W. exact W. Qed.
(** A device or the same device with a trusting user. *)
Definition like (w w0 : world) : Prop := w0 = w \/ w0 = trusting w.
Lemma net_like : forall dev es d w0, net C dev es -> like (dev d) w0 -> net C (dev_set dev d w0) es.
Proof.
  intros dev es d w0 M L. pose proof (net_wf C H dev es d M) as W.
  apply net_other; [exact M|destruct L as [-> | ->]; exact W|destruct L as [-> | ->]; reflexivity|destruct L as [-> | ->]; reflexivity|].
  intros. destruct L as [-> | ->]; split; reflexivity.
Qed.
Lemma set_thrice : forall dev d w0 w1 w2 x, dev_set (dev_set (dev_set dev d w0) d w1) d w2 x = dev_set dev d w2 x.
Proof. intros. unfold dev_set. destruct (addr_eqb x d); reflexivity. Qed.
Lemma like_rest : forall w w0, like w w0 -> w_pair w0 = w_pair w /\ w_sess w0 = w_sess w /\ w_prekeys w0 = w_prekeys w /\ w_signed w0 = w_signed w.
Proof. intros w w0 [-> | ->]; auto. Qed.
Lemma other_set : forall dev d w0 e, d <> e -> dev_set dev d w0 e = dev e.
Proof. intros. apply set_other. auto. Qed.

Theorem net_send_any : forall dev es1 c es2 d e pt w', net C dev (es1 ++ c :: es2) ->
  d <> e -> In d [cb_from c; cb_to c] -> In e [cb_from c; cb_to c] -> current_base (dev d) e (ln_base (cb_link c)) ->
  (p_sent (ln_par (cb_link c) (cb_role c d)) + 1 < 4294967296)%N -> leaves (encrypt_message C e pt) (dev d) w' ->
  exists dev', (forall x, dev' x = dev_set dev d w' x) /\
    (net C dev' (es1 ++ c :: es2) \/
     exists m, net C dev' (es1 ++ mkCable (cb_from c) (cb_to c) (link_sent (cb_link c) (cb_role c d) pt m) :: es2)).
Proof using H.
  intros dev es1 c es2 d e pt w' M N Jd Je Cb G Lv. destruct (w_shared (dev d)) eqn:Sh; [|eapply (net_send_cut C H); eauto].
  pose proof (net_wf C H dev _ d M) as Wd. destruct (leaves_shape _ _ _ (calls_shape C H (CEncrypt e pt) I) Wd Lv) as [W' P'].
  destruct (once_leaves true _ _ _ (strict_calls C (CEncrypt e pt)) (once_encrypt C e pt) Sh Lv) as [U|(Ok1 & Sr & _)].
  - exists (dev_set dev d w'). split; [reflexivity|]. left. apply cut_nothing; assumption.
  - destruct (Ok1 eq_refl) as (m & Ok2). set (w0 := trusting (dev d)) in *.
    pose proof (net_like dev _ d w0 M (or_intror eq_refl)) as M0. destruct (run0 (encrypt_message C e pt) w0) as [x w1] eqn:E. cbn [fst snd] in *. subst x.
    assert (K : net C (dev_set (dev_set dev d w0) d w1) (es1 ++ mkCable (cb_from c) (cb_to c) (link_sent (cb_link c) (cb_role c d) pt m) :: es2)).
    { eapply net_send; eauto; rewrite set_same; [exact Cb|exact E]. }
    exists (dev_set (dev_set (dev_set dev d w0) d w1) d w'). split; [intro x; apply set_thrice|]. right. exists m.
    apply net_other; [exact K|exact W'| | |]; rewrite ?set_same.
    + rewrite P'. symmetry. pose proof (run_pair (encrypt_message C e pt) [] w0) as Q. unfold run0 in E. rewrite E in Q. exact Q.
    + apply Sr.
    + intros c' _ _ _. destruct (send_prekeys C H _ _ _ _ _ _ _ (trusting_wf _ Wd : wf_device w0) (Cb : current_base w0 e _) E) as [S1 S2].
      pose proof (leaves_rest C (CEncrypt e pt) (dev d) w' Lv) as ((S3 & _) & _ & Pk & _). split; [unfold w0 in S1; cbn [trusting w_signed] in S1; congruence|].
      intros id _. rewrite S2. unfold w0. cbn [trusting w_prekeys]. apply Pk. discriminate.
Qed.

Theorem net_begin_any : forall dev es d e b ia ib sb ob rnd w', net C dev es -> d <> e ->
  List.length (links_between d e es) <= 40 -> wf_bundle b ->
  pair_for C ia (w_pair (dev d)) -> published C (dev e) b ib sb ob -> 64 <= List.length rnd ->
  ~ In (mont_pub C (firstn 32 rnd)) (bases (links_between d e es)) ->
  ~ In (mont_pub C (firstn 32 (skipn 32 rnd))) (mont_pub C sb :: all_keys (links_between d e es)) ->
  (forall l, In l (links_between d e es) -> ~ In (mont_pub C sb) (tl (ln_keys l))) ->
  (forall c id, In c es -> cb_to c = e -> bd_prekey_id (ln_bundle (cb_link c)) = Some id -> bd_prekey_id b <> Some id) ->
  leaves (process_bundle C e rnd b) (dev d) w' ->
  exists dev', (forall x, dev' x = dev_set dev d w' x) /\
    (net C dev' es \/
     net C dev' (mkCable d e (mkLink true b (mont_pub C (firstn 32 rnd)) start_party [mont_pub C sb; mont_pub C (firstn 32 (skipn 32 rnd))] []) :: es)).
Proof using H.
  intros dev es d e b ia ib sb ob rnd w' M N L40 Wb Pa Pub Lr Nb Nk Nsb Nid Lv. destruct (w_shared (dev d)) eqn:Sh; [|eapply (net_begin_cut C H); eauto].
  pose proof (net_wf C H dev _ d M) as Wd. destruct (leaves_shape _ _ _ (calls_shape C H (CBundle e rnd b) Wb) Wd Lv) as [W' P'].
  destruct (once_leaves true _ _ _ (strict_calls C (CBundle e rnd b)) (once_bundle C e rnd b) Sh Lv) as [U|(Ok1 & Sr & _)].
  - exists (dev_set dev d w'). split; [reflexivity|]. left. apply cut_nothing; assumption.
  - destruct (Ok1 eq_refl) as ([] & Ok2). set (w0 := trusting (dev d)) in *.
    pose proof (net_like dev _ d w0 M (or_intror eq_refl)) as M0.
    pose proof (leaves_rest C (CBundle e rnd b) (dev d) w' Lv) as ((S' & _) & _ & Pk' & _).
    pose proof (leaves_rest C (CBundle e rnd b) w0 _ (run0_leaves _ w0)) as ((S1 & _) & _ & Pk1 & _).
    destruct (run0 (process_bundle C e rnd b) w0) as [x w1] eqn:E. cbn [fst snd] in *. subst x.
    assert (K : net C (dev_set (dev_set dev d w0) d w1) (mkCable d e (mkLink true b (mont_pub C (firstn 32 rnd)) start_party [mont_pub C sb; mont_pub C (firstn 32 (skipn 32 rnd))] []) :: es)).
    { eapply net_begin; eauto; rewrite ?set_same, ?other_set by exact N; [exact Pa|exact Pub|exact E]. }
    exists (dev_set (dev_set (dev_set dev d w0) d w1) d w'). split; [intro x; apply set_thrice|]. right.
    apply net_other; [exact K|exact W'| | |]; rewrite ?set_same.
    + rewrite P'. symmetry. pose proof (run_pair (process_bundle C e rnd b) [] w0) as Q. unfold run0 in E. rewrite E in Q. exact Q.
    + apply Sr.
    + intros c' _ _ _. split; [unfold w0 in S1; cbn [trusting w_signed] in S1; congruence|]. intros id _. rewrite Pk1 by discriminate. apply Pk'. discriminate.
Qed.

(** A message that could be read has been read. *)
Lemma net_landed : forall dev es1 c es2 d e k n pt m rnd w0 pt' w1 w', net C dev (es1 ++ c :: es2) ->
  d <> e -> In d [cb_from c; cb_to c] -> In e [cb_from c; cb_to c] ->
  In (mkNote (negb (cb_role c d)) k n pt m) (ln_notes (cb_link c)) -> receivable (ln_par (cb_link c) (cb_role c d)) k n ->
  all_fresh C (all_keys (links_between d e (es1 ++ c :: es2))) (ln_par (cb_link c) (cb_role c d)) k (List.length (links_between d e (es1 ++ c :: es2))) rnd ->
  (has_cable c d -> ~ misread C (dev d) e (ln_base (cb_link c)) m) ->
  like (dev d) w0 -> run0 (decrypt_message C e rnd m) w0 = (Ok pt', w1) -> same_records w1 w' ->
  wf_device w' -> w_pair w' = w_pair (dev d) -> rest_same (CDecrypt e rnd m) (dev d) w' ->
  exists dev', (forall x, dev' x = dev_set dev d w' x) /\
    exists u, current_ratchet w' e u /\ net C dev' (es1 ++ mkCable (cb_from c) (cb_to c) (link_got (cb_link c) (cb_role c d) k n u) :: es2).
Proof using H.
  intros dev es1 c es2 d e k n pt m rnd w0 pt' w1 w' M N Jd Je Jn Rv Fr Nm Lk E Sr W' P' ((S' & _) & _ & Pk' & _).
  assert (Jc : In c (es1 ++ c :: es2)) by (apply in_or_app; right; left; reflexivity). pose proof (net_wf C H dev _ d M) as Wd.
  destruct (net_cable C H dev _ c M Jc) as (at_ & v & Hy). destruct (link_note C H at_ _ _ _ _ _ _ _ _ _ _ _ Hy Jn) as (sg & _ & _ & Wm & _ & Cs).
  pose proof (leaves_rest C (CDecrypt e rnd m) w0 _ (run0_leaves _ w0)) as ((S1 & _) & _ & Pk1 & _). cbn [start] in S1, Pk1. rewrite E in S1, Pk1. cbn [snd] in S1, Pk1.
  pose proof (net_like dev _ d w0 M Lk) as M0. destruct (like_rest _ _ Lk) as (Lp & Ls & Lq & Lg).
  assert (Nm0 : has_cable c d -> ~ misread C (dev_set dev d w0 d) e (ln_base (cb_link c)) m).
  { intros Q Z. apply (Nm Q). rewrite set_same in Z. unfold misread in *. rewrite Ls in Z. exact Z. }
  assert (E0 : run (decrypt_message C e rnd m) [] (dev_set dev d w0 d) = (Ok pt', w1)) by (rewrite set_same; exact E).
  destruct (net_answered C H _ _ _ _ _ _ _ _ _ _ _ _ _ M0 Jc N Jd Je Jn Rv Fr Nm0 E0) as (_ & _ & u & Cr & _).
  assert (K : net C (dev_set (dev_set dev d w0) d w1) (es1 ++ mkCable (cb_from c) (cb_to c) (link_got (cb_link c) (cb_role c d) k n u) :: es2)) by (eapply net_receive; eauto).
  exists (dev_set (dev_set (dev_set dev d w0) d w1) d w'). split; [intro x; apply set_thrice|]. exists u. split.
  { destruct Cr as (s & sc & Q & R1). exists s, sc. split; [|exact R1]. unfold current_session in *. destruct Sr as (Sr & _). rewrite Sr. exact Q. }
  apply net_other; [exact K|exact W'| | |]; rewrite ?set_same.
  + rewrite P', <- Lp. symmetry. pose proof (run_pair (decrypt_message C e rnd m) [] w0) as Q. unfold run0 in E. rewrite E in Q. exact Q.
  + apply Sr.
  + intros c' Jc' Ec' Nh. split; [congruence|]. intros id Eid.
    assert (Nn : prekey_named (CDecrypt e rnd m) <> Some id).
    { destruct Cs as [[-> _]|[Sd (pm & -> & _ & _ & _ & Ep)]]; [discriminate|]. cbn [prekey_named]. rewrite Ep. intro Eq.
      destruct (cb_role c d) eqn:Rd; [discriminate|]. unfold cb_role in Rd.
      assert (Et : cb_to c = d). { destruct Jd as [X|[X|[]]]; [|exact X]. rewrite X in Rd. rewrite addr_eqb_refl in Rd. discriminate. }
      pose proof (net_given C _ _ M) as G. rewrite flat_map_app in G. cbn [flat_map] in G.
      apply in_app_or in Jc'. destruct Jc' as [J|[<-|J]].
      - apply (nodup_mid _ _ _ (d, id) G); [apply given_in; auto|]. apply in_or_app. left. apply in_flat_map. exists c'. split; [exact J|apply given_in; auto].
      - apply Nh. right. split; [exact (eq_sym Et)|]. cbn [cb_link link_got ln_par]. unfold upd. cbn [eqb].
        unfold party_after. destruct (Nat.eqb k (S (p_epoch (ln_par (cb_link c) false)))) eqn:Ek; [discriminate|]. cbn [p_epoch]. intro Z0.
        assert (V : p_views (ln_par (cb_link c) false) = []). { destruct (history_in_step C H _ at_ _ _ _ _ _ Hy) as (k0 & ks0 & _ & _ & _ & _ & _ & _ & _ & _ & _ & _ & _ & Z1 & _). destruct (Z1 Z0) as [-> _]. reflexivity. }
        destruct Rv as [v0 J0 _ _|v0 J0 _ _ _|X _]; [rewrite V in J0; destruct J0|rewrite V in J0; destruct J0|]. apply Nat.eqb_neq in Ek. congruence.
      - apply (nodup_mid _ _ _ (d, id) G); [apply given_in; auto|]. apply in_or_app. right. apply in_flat_map. exists c'. split; [exact J|apply given_in; auto]. }
    rewrite Pk1 by exact Nn. rewrite Lq. apply Pk'. exact Nn.
Qed.
Lemma cable_state : forall dev es c d e, net C dev es -> In c es -> d <> e -> In d [cb_from c; cb_to c] -> In e [cb_from c; cb_to c] -> has_cable c d ->
  exists r s, w_sess (dev d) e = Some r /\ state_in s r /\ ss_alice_base s = Byte.x05 :: ln_base (cb_link c).
Proof using H.
  intros dev es c d e M Jc N Jd Je Hc. destruct (net_pairs C H dev es d e M N) as (dv & K & E1 & E2).
  destruct (net_link es c d e Jc N Jd Je) as (l & Jl & El & _ & Hl). apply Hl in Hc. pose proof (many_inv C H _ _ _ K) as Iv.
  pose proof Iv as (Wd & _ & _ & Lk & _). destruct (Lk l Jl) as (v & Hy & St).
  destruct (the_session C H _ _ _ _ l v true Iv Jl Hy (St true) Hc) as (s & _ & J & Eb & _).
  apply sess_in in J; [|apply Wd]. destruct J as (r & Er & J). rewrite E1 in Er. exists r, s. split; [exact Er|]. split; [exact J|]. rewrite Eb, El. reflexivity.
Qed.
(** The session of [pm] has been added and nothing read. *)
Definition halfway (w : world) (e : addr) (m : ciphertext) (w' : world) : Prop :=
  exists pm r s, m = CPreKey pm /\ w_sess w e = Some r /\ rc_has_state r (pm_version pm) (pub_bytes (pm_base pm)) = Ok false /\ bob_session C w pm s /\
    same_records (set_sess w e (rc_promote r s)) w'.
Lemma net_receive_split : forall dev es1 c es2 d e k n pt m rnd w', net C dev (es1 ++ c :: es2) ->
  d <> e -> In d [cb_from c; cb_to c] -> In e [cb_from c; cb_to c] ->
  In (mkNote (negb (cb_role c d)) k n pt m) (ln_notes (cb_link c)) -> receivable (ln_par (cb_link c) (cb_role c d)) k n ->
  all_fresh C (all_keys (links_between d e (es1 ++ c :: es2))) (ln_par (cb_link c) (cb_role c d)) k (List.length (links_between d e (es1 ++ c :: es2))) rnd ->
  (has_cable c d -> ~ misread C (dev d) e (ln_base (cb_link c)) m) ->
  leaves (decrypt_message C e rnd m) (dev d) w' ->
  (exists dev', (forall x, dev' x = dev_set dev d w' x) /\
    (net C dev' (es1 ++ c :: es2) \/
     exists u, current_ratchet w' e u /\ net C dev' (es1 ++ mkCable (cb_from c) (cb_to c) (link_got (cb_link c) (cb_role c d) k n u) :: es2))) \/
  w_shared (dev d) = true /\ halfway (dev d) e m w'.
Proof using H.
  intros dev es1 c es2 d e k n pt m rnd w' M N Jd Je Jn Rv Fr Nm Lv. destruct (w_shared (dev d)) eqn:Sh; [|left; eapply (net_receive_cut C H); eauto].
  pose proof (net_wf C H dev _ d M) as Wd.
  assert (Jc : In c (es1 ++ c :: es2)) by (apply in_or_app; right; left; reflexivity).
  destruct (net_cable C H dev _ c M Jc) as (at_ & v & Hy). destruct (link_note C H at_ _ _ _ _ _ _ _ _ _ _ _ Hy Jn) as (sg & _ & _ & Wm & _ & Cs).
  destruct (leaves_shape _ _ _ (calls_shape C H (CDecrypt e rnd m) Wm) Wd Lv) as [W' P'].
  set (w0 := trusting (dev d)). pose proof (net_like dev _ d w0 M (or_intror eq_refl)) as M0.
  assert (Del : exists w1, run0 (decrypt_message C e rnd m) w0 = (Ok pt, w1)).
  { destruct (net_delivered C H _ _ c d e k n pt m rnd M0 Jc N Jd Je Jn Rv Fr) as (w1 & Q); rewrite ?set_same in *; [exact Nm|reflexivity|eauto]. }
  destruct Del as (w1 & E).
  assert (Out : untouched (dev d) w' \/ same_records w1 w' \/ halfway (dev d) e m w').
  { destruct Cs as [[-> _]|[_ (pm & -> & _)]].
    - destruct (once_leaves false _ _ _ (strict_calls C (CDecrypt e rnd (CSignal sg))) (once_signal C e rnd sg) Sh Lv) as [U|(_ & R & _)]; [auto|].
      right. left. change (same_records (snd (run0 (decrypt_message C e rnd (CSignal sg)) w0)) w') in R. rewrite E in R. exact R.
    - destruct (prekey_cut C e rnd pm (dev d) w' pt w1 Sh E Lv) as [U|[R|(r & s & A1 & A2 & A3 & A4)]]; auto. right. right. exists pm, r, s. auto. }
  destruct Out as [U|[R|R]]; [left|left|right; auto].
  - exists (dev_set dev d w'). split; [reflexivity|]. left. apply cut_nothing; assumption.
  - destruct (net_landed dev es1 c es2 d e k n pt m rnd w0 pt w1 w' M N Jd Je Jn Rv Fr Nm (or_intror eq_refl) E R W' P' (leaves_rest C (CDecrypt e rnd m) (dev d) w' Lv)) as (dev' & Ed & Q).
    exists dev'. split; [exact Ed|]. right. exact Q.
Qed.
(** ** What the message says *)
Lemma note_here : forall dev es c d e k n pt m, net C dev es -> In c es -> d <> e -> In d [cb_from c; cb_to c] -> In e [cb_from c; cb_to c] ->
  In (mkNote (negb (cb_role c d)) k n pt m) (ln_notes (cb_link c)) ->
  wf_ciphertext m /\ ((exists sg, m = CSignal sg) \/
    exists pm, m = CPreKey pm /\ pm_base pm = ln_base (cb_link c) /\ pm_identity pm = kp_pub (w_pair (dev e))).
Proof using H.
  intros dev es c d e k n pt m M Jc N Jd Je Jn. destruct (net_pairs C H dev es d e M N) as (dv & K & E1 & E2).
  destruct (net_link es c d e Jc N Jd Je) as (l & Jl & El & Ro & _). destruct (many_each C H _ _ _ _ K Jl) as (v & Hy & St).
  assert (Jn' : In (mkNote (negb (cb_role c d)) k n pt m) (ln_notes l)) by (rewrite El; exact Jn).
  destruct (link_note C H _ _ _ _ _ _ _ _ _ _ _ _ Hy Jn') as (sg & _ & _ & Wm & _ & Cs). split; [exact Wm|].
  destruct Cs as [[-> _]|[Sd (pm & -> & _ & Eb & Ei & _)]]; [left; eauto|]. right. exists pm. split; [reflexivity|]. split; [rewrite Eb, El; reflexivity|].
  rewrite Ei. f_equal. destruct (St false) as [Sp _]. assert (Rf : role l false = true).
  { rewrite <- Ro in Sd. unfold role in *. destruct (ln_from l); [discriminate Sd|reflexivity]. }
  rewrite Rf in Sp. rewrite Sp, E2. reflexivity.
Qed.
Lemma settled_not_half : forall dev es c d e k n pt m w', net C dev es -> In c es -> d <> e -> In d [cb_from c; cb_to c] -> In e [cb_from c; cb_to c] ->
  In (mkNote (negb (cb_role c d)) k n pt m) (ln_notes (cb_link c)) -> has_cable c d \/ w_sess (dev d) e = None -> ~ halfway (dev d) e m w'.
Proof using H.
  intros dev es c d e k n pt m w' M Jc N Jd Je Jn Cs (pm & r & s & -> & Er & Hs & _). destruct Cs as [Hc|Q]; [|congruence].
  destruct (note_here _ _ _ _ _ _ _ _ _ M Jc N Jd Je Jn) as (Wm & [(sg & Q)|(pm' & Q & Eb & _)]); [discriminate|]. injection Q as <-.
  destruct (cable_state _ _ _ _ _ M Jc N Jd Je Hc) as (r' & t & Er' & Jt & Et). rewrite Er in Er'. injection Er' as <-.
  assert (Wr : wf_record r). { destruct (net_wf C H dev _ d M) as [W _]. eapply (proj1 W). exact Er. }
  destruct (has_state_spec r pm Wr Wm) as (h & Hh & Hi). rewrite Hs in Hh. injection Hh as <-. assert (false = true); [|discriminate]. apply Hi. exists t. split; [exact Jt|]. rewrite Eb. exact Et.
Qed.
Theorem net_receive_any : forall dev es1 c es2 d e k n pt m rnd w', net C dev (es1 ++ c :: es2) -> w_shared (dev d) = false \/ has_cable c d \/ w_sess (dev d) e = None ->
  d <> e -> In d [cb_from c; cb_to c] -> In e [cb_from c; cb_to c] ->
  In (mkNote (negb (cb_role c d)) k n pt m) (ln_notes (cb_link c)) -> receivable (ln_par (cb_link c) (cb_role c d)) k n ->
  all_fresh C (all_keys (links_between d e (es1 ++ c :: es2))) (ln_par (cb_link c) (cb_role c d)) k (List.length (links_between d e (es1 ++ c :: es2))) rnd ->
  (has_cable c d -> ~ misread C (dev d) e (ln_base (cb_link c)) m) ->
  leaves (decrypt_message C e rnd m) (dev d) w' ->
  exists dev', (forall x, dev' x = dev_set dev d w' x) /\
    (net C dev' (es1 ++ c :: es2) \/
     exists u, current_ratchet w' e u /\ net C dev' (es1 ++ mkCable (cb_from c) (cb_to c) (link_got (cb_link c) (cb_role c d) k n u) :: es2)).
Proof using H.
  intros dev es1 c es2 d e k n pt m rnd w' M St N Jd Je Jn Rv Fr Nm Lv.
  assert (Jc : In c (es1 ++ c :: es2)) by (apply in_or_app; right; left; reflexivity).
  destruct (net_receive_split _ _ _ _ _ _ _ _ _ _ _ _ M N Jd Je Jn Rv Fr Nm Lv) as [Q|[Sh Q]]; [exact Q|]. exfalso.
  destruct St as [St|St]; [congruence|]. exact (settled_not_half _ _ _ _ _ _ _ _ _ _ M Jc N Jd Je Jn St Q).
Qed.

(** The message comes again. *)
Theorem net_healed : forall dev es1 c es2 d e k n pt m rnd w' rnd2, net C dev (es1 ++ c :: es2) ->
  d <> e -> In d [cb_from c; cb_to c] -> In e [cb_from c; cb_to c] ->
  In (mkNote (negb (cb_role c d)) k n pt m) (ln_notes (cb_link c)) -> ahead (ln_par (cb_link c) (cb_role c d)) k n ->
  all_fresh C (all_keys (links_between d e (es1 ++ c :: es2))) (ln_par (cb_link c) (cb_role c d)) k (List.length (links_between d e (es1 ++ c :: es2))) rnd ->
  (has_cable c d -> ~ misread C (dev d) e (ln_base (cb_link c)) m) ->
  leaves (decrypt_message C e rnd m) (dev d) w' ->
  all_fresh C (all_keys (links_between d e (es1 ++ c :: es2))) (ln_par (cb_link c) (cb_role c d)) k (List.length (links_between d e (es1 ++ c :: es2))) rnd2 ->
  ~ misread C w' e (ln_base (cb_link c)) m -> w_policy w' e (w_ident w' e) (kp_pub (w_pair (dev e))) Receiving = true ->
  exists w'' dev'' l, run0 (decrypt_message C e rnd2 m) w' = (Ok pt, w'') /\ (forall x, dev'' x = dev_set dev d w'' x) /\
    net C dev'' (es1 ++ mkCable (cb_from c) (cb_to c) l :: es2) /\
    exists u, current_ratchet w'' e u /\ (l = link_got (cb_link c) (cb_role c d) k n u \/
      exists u0, l = link_got (link_got (cb_link c) (cb_role c d) k n u0) (cb_role c d) k n u).
Proof using H.
  intros dev es1 c es2 d e k n pt m rnd w' rnd2 M N Jd Je Jn Ah Fr Nm Lv Fr2 Nm2 T. pose proof (ahead_receivable _ _ _ Ah) as Rv.
  assert (Jc : In c (es1 ++ c :: es2)) by (apply in_or_app; right; left; reflexivity).
  destruct (net_receive_split _ _ _ _ _ _ _ _ _ _ _ _ M N Jd Je Jn Rv Fr Nm Lv) as [(dev' & Ed & K)|[Sh Hw]].
  - assert (E1 : dev' d = w') by (rewrite Ed; apply set_same). assert (E2 : dev' e = dev e) by (rewrite Ed; apply set_other; auto).
    assert (Ds : forall w'' x, dev_set dev' d w'' x = dev_set dev d w'' x). { intros w'' x. unfold dev_set at 1 2. rewrite Ed. unfold dev_set. destruct (addr_eqb x d); reflexivity. }
    destruct K as [K|(u0 & _ & K)].
    + destruct (net_delivered C H dev' _ c d e k n pt m rnd2 K Jc N Jd Je Jn Rv Fr2) as (w'' & Q); rewrite ?E1, ?E2; auto. rewrite E1 in Q.
      assert (Q0 : run (decrypt_message C e rnd2 m) [] (dev' d) = (Ok pt, w'')) by (rewrite E1; exact Q).
      destruct (net_answered C H dev' _ c d e k n pt m rnd2 [] pt w'' K Jc N Jd Je Jn Rv Fr2) as (_ & _ & u & Cr & _); [rewrite E1; auto|exact Q0|].
      exists w'', (dev_set dev' d w''), (link_got (cb_link c) (cb_role c d) k n u). split; [exact Q|]. split; [apply Ds|]. split; [|exists u; auto].
      eapply net_receive; eauto. rewrite E1. auto.
    + destruct (net_cable C H dev _ c M Jc) as (at_ & v & Hy). destruct (ahead_again _ _ _ (views_behind C H _ at_ _ _ _ _ _ Hy (cb_role c d)) Ah) as [R N0].
      set (c1 := mkCable (cb_from c) (cb_to c) (link_got (cb_link c) (cb_role c d) k n u0)) in *.
      assert (Pa : ln_par (cb_link c1) (cb_role c1 d) = party_after (ln_par (cb_link c) (cb_role c d)) k n) by (unfold c1, cb_role; cbn [cb_link cb_from link_got ln_par]; apply upd_same).
      assert (Jc1 : In c1 (es1 ++ c1 :: es2)) by (apply in_or_app; right; left; reflexivity).
      assert (R1 : receivable (ln_par (cb_link c1) (cb_role c1 d)) k n) by (rewrite Pa; exact R).
      assert (F1 : all_fresh C (all_keys (links_between d e (es1 ++ c1 :: es2))) (ln_par (cb_link c1) (cb_role c1 d)) k (List.length (links_between d e (es1 ++ c1 :: es2))) rnd2) by (rewrite Pa; intro Q; contradiction).
      destruct (net_delivered C H dev' _ c1 d e k n pt m rnd2 K Jc1 N Jd Je Jn R1 F1) as (w'' & Q); rewrite ?E1, ?E2; auto. rewrite E1 in Q.
      assert (Q0 : run (decrypt_message C e rnd2 m) [] (dev' d) = (Ok pt, w'')) by (rewrite E1; exact Q).
      destruct (net_answered C H dev' _ c1 d e k n pt m rnd2 [] pt w'' K Jc1 N Jd Je Jn R1 F1) as (_ & _ & u & Cr & _); [rewrite E1; auto|exact Q0|].
      exists w'', (dev_set dev' d w''), (link_got (cb_link c1) (cb_role c1 d) k n u). split; [exact Q|]. split; [apply Ds|]. split; [|exists u; split; [exact Cr|right; exists u0; reflexivity]].
      change (net C (dev_set dev' d w'') (es1 ++ mkCable (cb_from c1) (cb_to c1) (link_got (cb_link c1) (cb_role c1 d) k n u) :: es2)).
      eapply net_receive; eauto. rewrite E1. auto.
  - destruct Hw as (pm & r & s & -> & Er & Hs & Bs & Sr). pose proof (net_wf C H dev _ d M) as Wd.
    destruct (note_here _ _ _ _ _ _ _ _ _ M Jc N Jd Je Jn) as (Wm & [(sg & Q)|(pm' & Q & Eb & Ei)]); [discriminate|]. injection Q as <-.
    destruct (leaves_shape _ _ _ (calls_shape C H (CDecrypt e rnd (CPreKey pm)) Wm) Wd Lv) as [W' P'].
    set (w0 := trusting (dev d)). pose proof (net_like dev _ d w0 M (or_intror eq_refl)) as M0.
    destruct (net_delivered C H _ _ c d e k n pt (CPreKey pm) rnd2 M0 Jc N Jd Je Jn Rv Fr2) as (w1 & Q); rewrite ?set_same in *; [exact Nm|reflexivity|].
    cbn [decrypt_message] in Q. destruct (decrypt_prekey_inv _ _ _ _ _ _ _ _ Q) as (r1 & r2 & id & w3 & _ & [(Hx & _)|(Hx & -> & s' & Bs' & -> & ->)] & Dr & E1);
      change (w_sess w0 e) with (w_sess (dev d) e) in *; rewrite Er in *; cbn [loaded existed] in *; [congruence|].
    assert (s' = s) as -> by (exact (bob_session_fun C _ _ _ _ Bs' Bs)).
    assert (Es : w_sess w' e = Some (rc_promote r s)) by (rewrite (proj1 Sr); cbn; rewrite addr_eqb_refl; reflexivity).
    assert (Wr : wf_record (rc_promote r s)). { destruct W' as [W _]. eapply (proj1 W). exact Es. }
    assert (Ht : rc_has_state (rc_promote r s) (pm_version pm) (pub_bytes (pm_base pm)) = Ok true).
    { destruct (has_state_spec _ pm Wr Wm) as (h & Hh & Hi). rewrite Hh. f_equal. apply Hi. exists s. split; [left; reflexivity|].
      destruct Bs as (x & sg & ot & s0 & _ & _ & _ & _ & ->). reflexivity. }
    assert (Tr : w_policy w' e (w_ident w' e) (pm_identity pm) Receiving = true) by (rewrite Ei; exact T).
    assert (Run : run0 (decrypt_prekey C e rnd2 pm) w' = (Ok pt, prekey_done (set_ident w' e (pm_identity pm)) e true r2 None)).
    { pose proof (decrypt_prekey_completes C e rnd2 pm w' pt (rc_promote r s) r2 None (set_ident w' e (pm_identity pm))) as P. rewrite Es in P. cbn [loaded existed] in P. apply P; [|exact Dr].
      apply process_has; assumption. }
    set (w'' := prekey_done (set_ident w' e (pm_identity pm)) e true r2 None) in *.
    assert (Lv2 : leaves (decrypt_message C e rnd2 (CPreKey pm)) w' w''). { pose proof (run0_leaves (decrypt_message C e rnd2 (CPreKey pm)) w') as P. cbn [decrypt_message] in P. rewrite Run in P. exact P. }
    destruct (leaves_shape _ _ _ (calls_shape C H (CDecrypt e rnd2 (CPreKey pm)) Wm) W' Lv2) as [W'' P''].
    assert (Sr2 : same_records w1 w'').
    { rewrite E1. unfold w'', prekey_done. split.
      - intro x. assert (Sx : forall wa ra ida, w_sess (match ida with Some i => del_prekey (set_sess wa e ra) i | None => set_sess wa e ra end) x = if addr_eqb x e then Some ra else w_sess wa x) by (intros wa ra [i|]; reflexivity).
        rewrite (Sx _ _ None), Sx. destruct (addr_eqb x e) eqn:Qx; [reflexivity|].
        assert (St : forall wa ra ex, w_sess (touched wa e ex ra) x = w_sess wa x). { intros wa ra ex. unfold touched. destruct (ex && w_shared wa)%bool; [|reflexivity]. cbn. rewrite Qx. reflexivity. }
        rewrite !St. cbn [set_ident w_sess]. rewrite St. rewrite (proj1 Sr). cbn. rewrite Qx. reflexivity.
      - intros a g. assert (Sx : forall wa ra ida, w_groups (match ida with Some i => del_prekey (set_sess wa e ra) i | None => set_sess wa e ra end) a g = w_groups wa a g) by (intros wa ra [i|]; reflexivity).
        rewrite (Sx _ _ None), Sx. assert (St : forall wa ra ex, w_groups (touched wa e ex ra) a g = w_groups wa a g) by (intros wa ra ex; unfold touched; destruct (ex && w_shared wa)%bool; reflexivity).
        rewrite !St. cbn [set_ident w_groups]. rewrite St. rewrite (proj2 Sr). reflexivity. }
    destruct (net_landed dev es1 c es2 d e k n pt (CPreKey pm) rnd2 w0 pt w1 w'' M N Jd Je Jn Rv Fr2 Nm (or_intror eq_refl) Q Sr2 W'') as (dev'' & Ed & u & Cu & K).
    { congruence. }
    { eapply (rest_trans (CDecrypt e rnd2 (CPreKey pm))); [exact (leaves_rest C (CDecrypt e rnd (CPreKey pm)) (dev d) w' Lv)|exact (leaves_rest C (CDecrypt e rnd2 (CPreKey pm)) w' w'' Lv2)]. }
    exists w'', dev'', (link_got (cb_link c) (cb_role c d) k n u). split; [exact Run|]. split; [exact Ed|]. split; [exact K|]. exists u. auto.
Qed.

End Shared.
