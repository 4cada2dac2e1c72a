(** With overlapping calls kept apart: no position is used twice (C43, C56). *)
From Verif Require Import M_Base M_Crypto M_Aes M_Curve M_Proto M_Uuid M_Message M_Ratchet M_State M_Store M_Session M_Group
  S_Crypto S_Message S_State S_Ratchet S_Shape S_Session S_Api S_Send S_Group S_GroupMsg S_Isolation S_Apart S_Serial
  P_Base P_Uuid P_Prog P_Isolation P_Apart P_Serial P_SendTop P_GroupSend P_GroupTop.
From Coq Require Import List Lia.
Local Open Scope nat_scope.

Lemma crash_run : forall {A} (p : prog A) fs w, exists n, crash n p fs w = snd (run p fs w).
Proof.
  intros A p. induction p as [r|X o k IH]; intros fs w; [exists 0; reflexivity|]. cbn [run].
  destruct (exec_f o (hd_fault fs) w) as [x w'] eqn:E. destruct (IH x (tl fs) w') as [n Q]. exists (S n). cbn [crash pstep]. rewrite E. exact Q.
Qed.
Lemma body_start : forall C c, let '@Thread A p := start C c in exists g : res A -> answer, body C c = answering g p.
Proof. intros C c. destruct c; cbn [start body]; eauto. Qed.
Lemma body_outside : forall C c fs w, outside_same (scope_of c) w (snd (run (body C c) fs w)) /\ forall n, outside_same (scope_of c) w (crash n (body C c) fs w).
Proof.
  intros C c fs w. pose proof (call_writes_scope C c fs w) as S1. pose proof (body_start C c) as B. destruct (start C c) as [A p].
  destruct B as (g & ->). rewrite answering_run. cbn [snd]. destruct S1 as [S1 S2]. split; [exact S1|]. intro n. rewrite answering_crash. apply S2.
Qed.
Lemma outside_sess : forall sc w w' a, outside_same sc w w' -> sc <> OwnSession a -> w_sess w' a = w_sess w a.
Proof.
  intros sc w w' a (_ & _ & _ & _ & _ & M) N0. destruct sc as [b|b d]; [|rewrite (proj1 M); reflexivity]. apply M. congruence.
Qed.
Lemma outside_group : forall sc w w' a d, outside_same sc w w' -> sc <> OwnGroup a d -> w_groups w' a d = w_groups w a d.
Proof.
  intros sc w w' a d (_ & _ & _ & _ & _ & M) N0. destruct sc as [b|b e]; [rewrite (proj2 M); reflexivity|]. apply M. congruence.
Qed.

(** One-to-one. *)
Lemma sent_to_skip : forall a c fs o l, scope_of c <> OwnSession a -> sent_to a ((c, fs, o) :: l) = sent_to a l.
Proof.
  intros a c fs o l N0. destruct c; try reflexivity. destruct o as [[[]| | | |]|]; try reflexivity. cbn [sent_to].
  destruct (addr_eqb a0 a) eqn:E; [|reflexivity]. apply addr_eqb_eq in E. subst a0. contradiction N0. reflexivity.
Qed.
Lemma one_sends : forall C a w l w', one_by_one C w l w' ->
  (forall c fs o, In (c, fs, o) l -> scope_of c = OwnSession a -> exists pt, c = CEncrypt a pt) ->
  sends C a (List.length l) w (sent_to a l) w'.
Proof.
  intros C a w l w' O. induction O as [w|c fs r w w1 l w2 R O IH|c fs w l w2 O IH]; intro Only.
  - constructor.
  - cbn [List.length]. assert (T : sends C a (List.length l) w1 (sent_to a l) w2) by (apply IH; intros; eapply Only; [right|]; eassumption).
    assert (D : scope_of c = OwnSession a \/ scope_of c <> OwnSession a).
    { destruct (scope_of c) as [b|b d]; [|right; discriminate]. destruct (addr_eqb b a) eqn:E; [left; apply addr_eqb_eq in E; congruence|].
      right. intro Q. injection Q as ->. rewrite addr_eqb_refl in E. discriminate. }
    destruct D as [D|D].
    + destruct (Only c fs (Some r) (or_introl eq_refl) D) as [pt ->]. cbn [body] in R. rewrite answering_run in R.
      destruct (run (encrypt_message C a pt) fs w) as [r' w1'] eqn:Er. cbn [fst snd] in R. injection R as <- <-. destruct r' as [ct|e|]; cbn [sent_to].
      * rewrite addr_eqb_refl. exact (sends_cons C a _ w _ w1' _ w2 (at_sent C a pt fs w ct w1' Er) T).
      * exact (sends_cons C a _ w _ w1' _ w2 (at_failed C a pt fs w e w1' Er) T).
      * destruct (crash_run (encrypt_message C a pt) fs w) as [n Q]. rewrite Er in Q. cbn [snd] in Q. subst w1'.
        exact (sends_cons C a _ w _ _ _ w2 (at_crashed C a pt fs w n) T).
    + rewrite sent_to_skip by exact D. refine (sends_cons C a _ w None w1 _ w2 (at_other C a w w1 _) T).
      destruct (body_outside C c fs w) as [S1 _]. rewrite R in S1. cbn [snd] in S1. exact (outside_sess _ _ _ _ S1 D).
  - cbn [List.length]. assert (T : sends C a (List.length l) (crash (List.length fs) (body C c) fs w) (sent_to a l) w2) by (apply IH; intros; eapply Only; [right|]; eassumption).
    replace (sent_to a ((c, fs, None) :: l)) with (sent_to a l) by (destruct c; reflexivity).
    assert (D : scope_of c = OwnSession a \/ scope_of c <> OwnSession a).
    { destruct (scope_of c) as [b|b d]; [|right; discriminate]. destruct (addr_eqb b a) eqn:E; [left; apply addr_eqb_eq in E; congruence|].
      right. intro Q. injection Q as ->. rewrite addr_eqb_refl in E. discriminate. }
    destruct D as [D|D].
    + destruct (Only c fs None (or_introl eq_refl) D) as [pt ->]. cbn [body] in T. rewrite answering_crash in T.
      exact (sends_cons C a _ w None _ _ w2 (at_crashed C a pt fs w _) T).
    + refine (sends_cons C a _ w None _ _ w2 (at_other C a w _ _) T).
      destruct (body_outside C c fs w) as [_ S1]. exact (outside_sess _ _ _ _ (S1 _) D).
Qed.
Theorem locked_sends : forall C w0 ended l w a s ratchet key i, CryptoOk C -> wf_device w0 -> serialised C w0 ended l w ->
  device_at w0 a s ratchet key i -> (forall c fs o, In (c, fs, o) ended -> scope_of c = OwnSession a -> exists pt, c = CEncrypt a pt) ->
  (i + N.of_nat (List.length ended) < 2 ^ 32)%N ->
  (forall pt c, In (pt, c) (sent_to a ended) -> exists m, inner c = Some m /\ sg_ratchet m = ratchet) /\
  (forall j1 j2 pt1 c1 pt2 c2 m1 m2, j1 < j2 ->
     nth_error (sent_to a ended) j1 = Some (pt1, c1) -> nth_error (sent_to a ended) j2 = Some (pt2, c2) ->
     inner c1 = Some m1 -> inner c2 = Some m2 -> (sg_counter m1 < sg_counter m2)%N).
Proof.
  intros C w0 ended l w a s ratchet key i H W Se D Only L. destruct (serial _ _ _ _ _ Se) as (w1 & O & _).
  destruct (never_repeated C a w0 w1 s ratchet key i _ _ H W D (one_sends C a w0 ended w1 O Only) L) as [N1 N2]. split; [|exact N2].
  intros pt c J. apply In_nth_error in J. destruct J as [j J]. destruct (N1 j pt c J) as (m & A1 & A2 & _). eauto.
Qed.

(** Groups. *)
Lemma reach_run : forall C fs A (p : prog A) ts w, reachable C (Thread p :: ts, w) -> exists ts', reachable C (ts', snd (run p fs w)).
Proof.
  intros C fs A p. revert fs. induction p as [r|X o k IH]; intros fs ts w R; cbn [run]; [eauto|].
  destruct (exec_f o (hd_fault fs) w) as [x w'] eqn:E. apply (IH x (tl fs) ts). eapply reach_step; [exact R|]. exact (step_op C [] ts o k _ w x w' E).
Qed.
Lemma reach_crash : forall C n fs A (p : prog A) ts w, reachable C (Thread p :: ts, w) -> exists ts', reachable C (ts', crash n p fs w).
Proof.
  intros C n. induction n as [|n IH]; intros fs A p ts w R; cbn [crash]; [eauto|]. destruct p as [r|X o k]; cbn [pstep]; [exact (IH _ _ _ _ _ R)|].
  destruct (exec_f o (hd_fault fs) w) as [x w'] eqn:E. apply (IH (tl fs) A (k x) ts). eapply reach_step; [exact R|]. exact (step_op C [] ts o k _ w x w' E).
Qed.
Lemma reach_body : forall C c fs ts w, reachable C (ts, w) -> wf_call c ->
  (exists ts', reachable C (ts', snd (run (body C c) fs w))) /\ forall n, exists ts', reachable C (ts', crash n (body C c) fs w).
Proof.
  intros C c fs ts w R Wc. assert (R1 : reachable C (start C c :: ts, w)) by (eapply reach_step; [exact R|constructor; exact Wc]).
  pose proof (body_start C c) as B. destruct (start C c) as [A p]. destruct B as [g ->]. rewrite answering_run. cbn [snd]. split; [eapply reach_run; exact R1|].
  intro n. rewrite answering_crash. eapply reach_crash; exact R1.
Qed.
Lemma group_scope_dec : forall sc a d, sc = OwnGroup a d \/ sc <> OwnGroup a d.
Proof.
  intros sc a d. destruct sc as [b|b e]; [right; discriminate|]. destruct (addr_eqb b a) eqn:E; [|right; intro Q; injection Q as -> _; rewrite addr_eqb_refl in E; discriminate].
  apply addr_eqb_eq in E. subst b. destruct (list_eq_dec Byte.byte_eq_dec e d) as [->|N0]; [auto|]. right. congruence.
Qed.
Lemma gsent_to_skip : forall a d c fs o l, scope_of c <> OwnGroup a d -> gsent_to a d ((c, fs, o) :: l) = gsent_to a d l.
Proof.
  intros a d c fs o l N0. destruct c; try reflexivity. destruct o as [[| | |[]|]|]; try reflexivity. cbn [gsent_to].
  destruct (addr_eqb a0 a && distid_eqb d0 d) eqn:E; [|reflexivity]. apply andb_true_iff in E. destruct E as [E1 E2].
  apply addr_eqb_eq in E1. apply bytes_eqb_eq in E2. subst. contradiction N0. reflexivity.
Qed.
Lemma one_gtries : forall C a d w l w', one_by_one C w l w' -> CryptoOk C -> (exists ts, reachable C (ts, w)) -> (forall c fs o, In (c, fs, o) l -> wf_call c) ->
  (forall c fs o, In (c, fs, o) l -> scope_of c = OwnGroup a d -> exists rnd pt, c = CGEncrypt a d rnd pt) ->
  gtries C a d (List.length l) w (gsent_to a d l) w'.
Proof.
  intros C a d w l w' O H. induction O as [w|c fs r w w1 l w2 R O IH|c fs w l w2 O IH]; intros [ts Re] Wl Only.
  - constructor.
  - destruct (reach_body C c fs ts w Re (Wl _ _ _ (or_introl eq_refl))) as [Re1 _]. rewrite R in Re1. cbn [snd] in Re1.
    assert (T : gtries C a d (List.length l) w1 (gsent_to a d l) w2) by (apply IH; [exact Re1|..]; intros; [eapply Wl|eapply Only]; try right; eassumption).
    cbn [List.length]. destruct (group_scope_dec (scope_of c) a d) as [D|D].
    + destruct (Only c fs (Some r) (or_introl eq_refl) D) as (rnd & pt & ->). cbn [body] in R. rewrite answering_run in R.
      destruct (run (gencrypt C a d rnd pt) fs w) as [r' w1'] eqn:Er. cbn [fst snd] in R. injection R as <- <-. destruct r' as [m|e|]; cbn [gsent_to].
      * rewrite addr_eqb_refl. unfold distid_eqb. rewrite bytes_eqb_refl. cbn [andb]. eapply gtries_ok; [exact Er|exact T].
      * eapply gtries_fail; [exact Er|discriminate|exact T].
      * eapply gtries_fail; [exact Er|discriminate|exact T].
    + rewrite gsent_to_skip by exact D. destruct Re1 as [ts1 Re1]. eapply gtries_other; [eapply reachable_own_device; eassumption| |exact T].
      destruct (body_outside C c fs w) as [S1 _]. rewrite R in S1. exact (outside_group _ _ _ _ _ S1 D).
  - destruct (reach_body C c fs ts w Re (Wl _ _ _ (or_introl eq_refl))) as [_ Re1]. specialize (Re1 (List.length fs)).
    assert (T : gtries C a d (List.length l) (crash (List.length fs) (body C c) fs w) (gsent_to a d l) w2)
      by (apply IH; [exact Re1|..]; intros; [eapply Wl|eapply Only]; try right; eassumption).
    cbn [List.length]. replace (gsent_to a d ((c, fs, None) :: l)) with (gsent_to a d l) by (destruct c; reflexivity).
    destruct (group_scope_dec (scope_of c) a d) as [D|D].
    + destruct (Only c fs None (or_introl eq_refl) D) as (rnd & pt & ->). cbn [body] in T. rewrite answering_crash in T. eapply gtries_crash. exact T.
    + destruct Re1 as [ts1 Re1]. eapply gtries_other; [eapply reachable_own_device; eassumption| |exact T].
      destruct (body_outside C c fs w) as [_ S1]. exact (outside_group _ _ _ _ _ (S1 _) D).
Qed.
Theorem locked_gsends : forall C ts w0 ended l w a d chain signing n key, CryptoOk C -> reachable C (ts, w0) -> serialised C w0 ended l w ->
  speaks w0 a d chain signing n key -> (forall c fs o, In (c, fs, o) ended -> wf_call c) ->
  (forall c fs o, In (c, fs, o) ended -> scope_of c = OwnGroup a d -> exists rnd pt, c = CGEncrypt a d rnd pt) ->
  (n + N.of_nat (List.length ended) < 2 ^ 32)%N ->
  (forall pt m, In (pt, m) (gsent_to a d ended) -> sm_chain m = chain) /\
  (forall j1 j2 pt1 m1 pt2 m2, j1 < j2 -> nth_error (gsent_to a d ended) j1 = Some (pt1, m1) -> nth_error (gsent_to a d ended) j2 = Some (pt2, m2) ->
     (sm_iter m1 < sm_iter m2)%N).
Proof.
  intros C ts w0 ended l w a d chain signing n key H R Se Sp Wl Only L. destruct (serial _ _ _ _ _ Se) as (w1 & O & _).
  destruct (gincreasing C a d _ w0 _ w1 (one_gtries C a d w0 ended w1 O H (ex_intro _ ts R) Wl Only) chain signing n key H (reachable_own_device C ts w0 H R) Sp L) as [N1 N2].
  split; [|exact N2]. intros pt m J. apply In_nth_error in J. destruct J as [j J]. exact (proj1 (proj2 (N1 j pt m J))).
Qed.

(** Successful sends in sequence. *)
Lemma sends_serial : forall C a w l w', sends_ok C a w l w' -> forall w0 ended, serialised C w0 ended [] w ->
  exists more, serialised C w0 (ended ++ more) [] w' /\ sent_to a more = l /\ forall c fs o, In (c, fs, o) more -> exists pt, c = CEncrypt a pt.
Proof.
  intros C a w l w' S1. induction S1 as [w|w pt fs c w1 l w2 E S1 IH]; intros w0 ended Se.
  - exists []. rewrite app_nil_r. split; [exact Se|]. split; [reflexivity|intros ? ? ? []].
  - assert (E' : run (body C (CEncrypt a pt)) fs w = (Ok (AText (Ok c)), w1)) by (cbn [body]; rewrite answering_run, E; reflexivity).
    destruct (serial_next C w0 ended (CEncrypt a pt) fs w _ w1 Se E') as [gs Se1]. destruct (IH w0 _ Se1) as (more & Q1 & Q2 & Q3).
    exists ((CEncrypt a pt, gs, Some (AText (Ok c))) :: more). rewrite <- app_assoc in Q1. split; [exact Q1|]. cbn [sent_to]. rewrite addr_eqb_refl, Q2. split; [reflexivity|].
    intros c' f' o [J|J]; [injection J as <- _ _; eauto|eauto].
Qed.
Lemma gsends_serial : forall C a d w l w', gsends C a d w l w' -> forall w0 ended, serialised C w0 ended [] w ->
  exists more, serialised C w0 (ended ++ more) [] w' /\ gsent_to a d more = l /\ forall c fs o, In (c, fs, o) more -> exists rnd pt, c = CGEncrypt a d rnd pt.
Proof.
  intros C a d w l w' S1. induction S1 as [w|w rnd pt fs m w1 l w2 E S1 IH]; intros w0 ended Se.
  - exists []. rewrite app_nil_r. split; [exact Se|]. split; [reflexivity|intros ? ? ? []].
  - assert (E' : run (body C (CGEncrypt a d rnd pt)) fs w = (Ok (ASender (Ok m)), w1)) by (cbn [body]; rewrite answering_run, E; reflexivity).
    destruct (serial_next C w0 ended (CGEncrypt a d rnd pt) fs w _ w1 Se E') as [gs Se1]. destruct (IH w0 _ Se1) as (more & Q1 & Q2 & Q3).
    exists ((CGEncrypt a d rnd pt, gs, Some (ASender (Ok m))) :: more). rewrite <- app_assoc in Q1. split; [exact Q1|].
    cbn [gsent_to]. rewrite addr_eqb_refl. unfold distid_eqb. rewrite bytes_eqb_refl, Q2. split; [reflexivity|].
    intros c' f' o [J|J]; [injection J as <- _ _; eauto|eauto].
Qed.
