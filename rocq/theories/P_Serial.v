(** Calls that overlap only if they are apart might as well run one after the other (C70). *)
From Verif Require Import M_Base M_Crypto M_Aes M_Curve M_Proto M_Uuid M_Message M_Ratchet M_State M_Store M_Session M_Group
  S_Message S_State S_Shape S_Session S_Api S_Isolation S_Apart S_Serial P_Base P_Uuid P_Prog P_Isolation P_Apart.
From Coq Require Import List.
Local Open Scope nat_scope.

Lemma own_sym : forall c w w', own_same c w w' -> own_same c w' w.
Proof.
  intros c w w' O. unfold own_same in *. destruct (scope_of c); [|congruence]. destruct O as (A & B & D). split; [congruence|]. split; [congruence|].
  intros id E. symmetry. auto.
Qed.
Lemma after_own : forall c {A} fs (p : prog A) w w', pall (own_op c) any_ans p -> own_view c w w' ->
  fst (after fs p w') = fst (after fs p w) /\ own_view c (snd (after fs p w)) (snd (after fs p w')) /\ rest_same c w (snd (after fs p w)).
Proof.
  intros c A fs. induction fs as [|f fs IH]; intros p w w' P V; cbn [after].
  - split; [reflexivity|]. split; [exact V|apply rest_refl].
  - destruct p as [r|X o k]; cbn [pstep].
    + apply IH; [exact P|exact V].
    + destruct P as [P1 P2]. destruct (exec_f_own c X o f w w' P1 V) as [E1 E2]. pose proof (exec_f_rest c X o f w P1) as R.
      destruct (exec_f o f w) as [x w1], (exec_f o f w') as [x' w1']. cbn [fst snd] in *. subst x'.
      destruct (IH (k x) w1 w1' (P2 x I) E2) as (Q1 & Q2 & Q3). split; [exact Q1|]. split; [exact Q2|]. eapply rest_trans; eassumption.
Qed.
Lemma after_run : forall {A} fs (p : prog A) w r w1, after fs p w = (PRet r, w1) -> run p fs w = (r, w1).
Proof.
  intros A fs. induction fs as [|f fs IH]; intros p w r w1 E; cbn [after] in E.
  - injection E as -> ->. reflexivity.
  - destruct p as [r0|X o k]; cbn [pstep] in E.
    + apply IH in E. exact E.
    + cbn [run hd_fault tl]. destruct (exec_f o f w) as [x w']. apply IH. exact E.
Qed.
Lemma after_crash : forall {A} fs (p : prog A) w, crash (List.length fs) p fs w = snd (after fs p w).
Proof. intros A fs. induction fs as [|f fs IH]; intros p w; cbn [after List.length crash hd_fault tl]; [reflexivity|]. destruct (pstep p f w) as [p' w']. apply IH. Qed.
Lemma answering_pall : forall (ok : forall X, op X -> Prop) (ans : forall X, op X -> res X -> Prop) {A} f (p : prog A), pall ok ans p -> pall ok ans (answering f p).
Proof. intros ok ans A f p. induction p as [r|X o k IH]; cbn [answering pall]; [auto|]. intros [P1 P2]. split; auto. Qed.
Lemma answering_run : forall {A} f (p : prog A) fs w, run (answering f p) fs w = (Ok (f (fst (run p fs w))), snd (run p fs w)).
Proof. intros A f p. induction p as [r|X o k IH]; intros fs w; cbn [answering run]; [reflexivity|]. destruct (exec_f o (hd_fault fs) w) as [x w']. apply IH. Qed.
Lemma answering_crash : forall {A} f n (p : prog A) fs w, crash n (answering f p) fs w = crash n p fs w.
Proof.
  intros A f n. induction n as [|n IH]; intros p fs w; cbn [crash]; [reflexivity|]. destruct p as [r|X o k]; cbn [answering pstep]; [exact (IH (PRet r) _ _)|].
  destruct (exec_f o (hd_fault fs) w) as [x w']. apply IH.
Qed.
Lemma body_own : forall C c, pall (own_op c) any_ans (body C c).
Proof.
  intros C c. pose proof (calls_own C c) as P. destruct c; cbn [start body] in *; apply answering_pall; exact P.
Qed.
Lemma one_snoc : forall C w l w1 c fs r w2, one_by_one C w l w1 -> run (body C c) fs w1 = (Ok r, w2) -> one_by_one C w (l ++ [(c, fs, Some r)]) w2.
Proof.
  intros C w l w1 c fs r w2 O. induction O as [w|c' fs' r' w w1' l w1 R O IH|c' fs' w l w1 O IH]; intros Er; cbn [app].
  - eapply ob_call; [exact Er|constructor].
  - eapply ob_call; [exact R|auto].
  - apply ob_abandon. auto.
Qed.
Lemma one_snoc_ab : forall C w l w1 c fs, one_by_one C w l w1 -> one_by_one C w (l ++ [(c, fs, None)]) (snd (after fs (body C c) w1)).
Proof.
  intros C w l w1 c fs O. induction O as [w|c' fs' r' w w1' l w1 R O IH|c' fs' w l w1 O IH]; cbn [app].
  - apply ob_abandon. rewrite after_crash. constructor.
  - eapply ob_call; [exact R|auto].
  - apply ob_abandon. auto.
Qed.

Definition entries_of {T} (l : list (call * list fault * T)) : list call := map (fun x => fst (fst x)) l.
Definition at_work (C : Crypto) (w0 w : world) (c : call) (fs : list fault) (p : prog answer) : Prop :=
  pall (own_op c) any_ans p /\ p = fst (after fs (body C c) w0) /\ own_view c (snd (after fs (body C c) w0)) w.
Lemma at_work_step : forall C c fs X (o : op X) k w0 w f x w', at_work C w0 w c fs (PDo o k) -> exec_f o f w = (x, w') ->
  at_work C w0 w' c (fs ++ [f]) (k x) /\ own_op c X o.
Proof.
  intros C c fs X o k w0 w f x w' ([P1 P2] & P3 & P4) E. split; [|exact P1]. split; [apply P2; exact I|].
  rewrite after_app. destruct (after fs (body C c) w0) as [p' wa]. cbn [fst snd] in *. subst p'. cbn [after pstep].
  destruct (exec_f_own c X o f wa w P1 P4) as [Q1 Q2]. rewrite E in Q1, Q2. destruct (exec_f o f wa) as [y w3]. cbn [fst snd] in *. subst y. auto.
Qed.
Definition serial_ok (C : Crypto) (w1 : world) (l : list (call * list fault * prog answer)) (w : world) : Prop :=
  ForallOrdPairs apart (entries_of l) /\ same_device w1 w /\ (forall c fs p, In (c, fs, p) l -> at_work C w1 w c fs p) /\ unowned_same (entries_of l) w1 w.
Lemma group_names_none : forall c a d, scope_of c = OwnGroup a d -> prekey_named c = None.
Proof. intros c a d E. destruct c; try reflexivity; discriminate E. Qed.
Lemma apart_free : forall c l w w', Forall (apart c) l -> unowned_same l w w' -> own_same c w w'.
Proof.
  intros c l w w' F (U1 & U2 & U3). rewrite Forall_forall in F. unfold own_same. destruct (scope_of c) as [a|a d] eqn:Ec.
  - assert (Q : forall x, In x l -> scope_of x <> OwnSession a).
    { intros x J E. specialize (F x J). unfold apart in F. rewrite Ec, E in F. destruct F as [F _]. contradiction. }
    destruct (U1 a Q) as [S1 S2]. split; [exact S1|]. split; [exact S2|]. intros id E. apply U2. intros x J Ex. specialize (F x J). unfold apart in F. rewrite Ec in F.
    destruct (scope_of x) as [b|b e] eqn:Es; [|rewrite (group_names_none x b e Es) in Ex; discriminate]. destruct F as [_ [F|F]]; congruence.
  - apply U3. intros x J E. specialize (F x J). unfold apart in F. rewrite Ec, E in F. congruence.
Qed.
Lemma unowned_trans : forall l w1 w2 w3, unowned_same l w1 w2 -> unowned_same l w2 w3 -> unowned_same l w1 w3.
Proof.
  intros l w1 w2 w3 (A1 & A2 & A3) (B1 & B2 & B3). split; [|split].
  - intros a N0. destruct (A1 a N0), (B1 a N0). split; congruence.
  - intros id N0. rewrite B2, A2; auto.
  - intros a d N0. rewrite B3, A3; auto.
Qed.
Lemma rest_unowned : forall c l w w', In c l -> rest_same c w w' -> unowned_same l w w'.
Proof.
  intros c l w w' J [_ R]. destruct (scope_of c) as [a|a d] eqn:Ec; destruct R as (R1 & R2 & R3); split; [|split| |split].
  - intros b F. apply R1. intro E. apply (F c J). congruence.
  - intros id F. apply R2. auto.
  - intros b d _. apply R3.
  - intros b _. apply R1.
  - intros id _. apply R2.
  - intros b e F. apply R3. intro E. injection E as -> ->. exact (F c J Ec).
Qed.
Lemma serial_call : forall C w1 c l w, serial_ok C w1 l w -> Forall (fun x => apart c (fst (fst x))) l -> serial_ok C w1 ((c, [], body C c) :: l) w.
Proof.
  intros C w1 c l w (I1 & I2 & I3 & I4) F. assert (Fa : Forall (apart c) (entries_of l)) by (unfold entries_of; rewrite Forall_map; exact F).
  split; [constructor; assumption|]. split; [exact I2|]. split.
  - intros c' fs t [J|J]; [|auto]. injection J as <- <- <-. split; [apply body_own|]. split; [reflexivity|].
    split; [exact I2|]. exact (apart_free _ _ _ _ Fa I4).
  - destruct I4 as (U1 & U2 & U3). cbn [entries_of map fst]. split; [|split].
    + intros a Q. apply U1. intros x J. apply Q. right. exact J.
    + intros id Q. apply U2. intros x J. apply Q. right. exact J.
    + intros a d Q. apply U3. intros x J. apply Q. right. exact J.
Qed.
Lemma calls_mid : forall {T} l1 c fs (t : T) l2, entries_of (l1 ++ (c, fs, t) :: l2) = entries_of l1 ++ c :: entries_of l2.
Proof. intros. unfold entries_of. rewrite map_app. reflexivity. Qed.
Lemma serial_op : forall C w1 l1 c fs l2 X (o : op X) k f w x w', serial_ok C w1 (l1 ++ (c, fs, PDo o k) :: l2) w ->
  exec_f o f w = (x, w') -> serial_ok C w1 (l1 ++ (c, fs ++ [f], k x) :: l2) w'.
Proof.
  intros C w1 l1 c fs l2 X o k f w x w' (I1 & I2 & I3 & I4) E. unfold serial_ok. rewrite calls_mid in *.
  destruct (at_work_step C c fs X o k w1 w f x w') as [Pn Ko]; [apply I3, in_elt|exact E|].
  assert (R : rest_same c w w') by (replace w' with (snd (exec_f o f w)) by (rewrite E; reflexivity); apply exec_f_rest; exact Ko).
  split; [exact I1|]. split; [eapply dev_trans; [exact I2|apply R]|]. split.
  - intros c' fs' t' J. apply in_app_or in J. cbn [In] in J.
    assert (Oth : In (c', fs', t') l1 \/ In (c', fs', t') l2 -> at_work C w1 w' c' fs' t').
    { intro J'. assert (J2 : In (c', fs', t') (l1 ++ (c, fs, PDo o k) :: l2)) by (apply in_or_app; cbn [In]; tauto).
      destruct (I3 _ _ _ J2) as (Q1 & Q2 & Q3 & Q4). split; [exact Q1|]. split; [exact Q2|].
      split; [eapply dev_trans; [exact Q3|apply R]|]. eapply own_trans; [exact Q4|]. apply (apart_own c c'); [|exact R].
      apply (pairs_mid apart (entries_of l1) c (entries_of l2) apart_sym I1). unfold entries_of. destruct J' as [J'|J']; [left|right]; exact (in_map (fun x => fst (fst x)) _ _ J'). }
    destruct J as [J|[J|J]]; [auto| |auto]. injection J as <- <- <-. exact Pn.
  - eapply unowned_trans; [exact I4|]. apply (rest_unowned c); [apply in_elt|exact R].
Qed.
Lemma pairs_drop : forall (R : call -> call -> Prop) l1 c l2, ForallOrdPairs R (l1 ++ c :: l2) -> ForallOrdPairs R (l1 ++ l2).
Proof.
  intros R l1. induction l1 as [|y l1 IH]; intros c l2 F; cbn [app] in *; inversion F as [|? ? F1 F2]; subst; [exact F2|].
  constructor; [|eapply IH; exact F2]. apply Forall_app in F1. destruct F1 as [F1 F3]. inversion F3; subst. apply Forall_app. auto.
Qed.
Lemma serial_end : forall C w1 l1 c fs q l2 w, serial_ok C w1 (l1 ++ (c, fs, q) :: l2) w ->
  exists w2, after fs (body C c) w1 = (q, w2) /\ serial_ok C w2 (l1 ++ l2) w.
Proof.
  intros C w1 l1 c fs q l2 w (I1 & I2 & I3 & I4). rewrite calls_mid in I1, I4.
  pose proof (I3 c fs _ (in_elt _ _ _)) as (_ & Pt & Pd & Pw). pose proof (body_own C c) as Oc.
  assert (V : own_view c w1 w1) by (split; [apply dev_refl|apply own_refl]).
  pose proof (after_own c fs (body C c) w1 w1 Oc V) as (_ & _ & R).
  destruct (after fs (body C c) w1) as [q' w2] eqn:Ea. cbn [fst snd] in *. subst q'.
  exists w2. split; [reflexivity|].
  unfold serial_ok. replace (entries_of (l1 ++ l2)) with (entries_of l1 ++ entries_of l2) by (unfold entries_of; rewrite map_app; reflexivity).
  split; [eapply pairs_drop; exact I1|]. split; [exact Pd|]. split.
  - intros c' fs' t' J. apply in_app_or in J.
    assert (J2 : In (c', fs', t') (l1 ++ (c, fs, q) :: l2)) by (apply in_or_app; cbn [In]; tauto).
    destruct (I3 _ _ _ J2) as (Q1 & Q2 & Q3 & Q4). split; [exact Q1|]. pose proof (body_own C c') as Oc'.
    assert (Ap : apart c c').
    { apply (pairs_mid apart (entries_of l1) c (entries_of l2) apart_sym I1). unfold entries_of. destruct J as [J|J]; [left|right]; exact (in_map (fun x => fst (fst x)) _ _ J). }
    destruct (after_own c' fs' (body C c') w1 w2 Oc' (apart_view c c' w1 w2 Ap R)) as (S1 & [S2 S3] & _).
    split; [rewrite S1; exact Q2|]. split; [eapply dev_trans; [apply dev_sym; exact S2|exact Q3]|]. eapply own_trans; [apply own_sym; exact S3|exact Q4].
  - assert (D : forall x, In x (entries_of l1 ++ c :: entries_of l2) -> x = c \/ In x (entries_of l1 ++ entries_of l2)).
    { intros x J. apply in_app_or in J. destruct J as [J|[J|J]]; [right; apply in_or_app; auto|left; auto|right; apply in_or_app; auto]. }
    destruct I4 as (U1 & U2 & U3). destruct R as [_ R]. unfold own_same in Pw. destruct (scope_of c) as [a0|a0 d0] eqn:Es.
    + destruct R as (R1 & R2 & R3). destruct Pw as (P1 & P2 & P3). split; [|split].
      * intros a F. destruct (addr_eqb a a0) eqn:Eq; [apply addr_eqb_eq in Eq; subst a; auto|].
        assert (N0 : a <> a0) by (intro Z; subst a; rewrite addr_eqb_refl in Eq; discriminate). destruct (R1 a N0) as [T1 T2].
        destruct (U1 a) as [T3 T4]; [|split; congruence]. intros x J. destruct (D x J) as [->|J']; [rewrite Es; congruence|auto].
      * intros id F. destruct (prekey_named c) as [i|] eqn:En; [destruct (N.eq_dec i id) as [->|N0]; [auto|]|].
        all: rewrite U2; [symmetry; apply R2; congruence|]; intros x J; destruct (D x J) as [->|J']; [congruence|auto].
      * intros a d F. rewrite U3; [symmetry; apply R3|]. intros x J. destruct (D x J) as [->|J']; [rewrite Es; discriminate|auto].
    + destruct R as (R1 & R2 & R3). split; [|split].
      * intros a F. destruct (R1 a) as [T1 T2]. destruct (U1 a) as [T3 T4]; [|split; congruence]. intros x J. destruct (D x J) as [->|J']; [rewrite Es; discriminate|auto].
      * intros id F. rewrite U2; [symmetry; apply R2|]. intros x J. destruct (D x J) as [->|J']; [rewrite (group_names_none _ _ _ Es); discriminate|auto].
      * intros a d F. destruct (addr_eqb a a0) eqn:Eq; [apply addr_eqb_eq in Eq; subst a; destruct (list_eq_dec Byte.byte_eq_dec d d0) as [->|Nd]; [exact Pw|]|].
        -- rewrite U3; [symmetry; apply R3; congruence|]. intros x J. destruct (D x J) as [->|J']; [rewrite Es; congruence|auto].
        -- assert (N0 : a <> a0) by (intro Z; subst a; rewrite addr_eqb_refl in Eq; discriminate).
           rewrite U3; [symmetry; apply R3; congruence|]. intros x J. destruct (D x J) as [->|J']; [rewrite Es; congruence|auto].
Qed.
Lemma serial_inv : forall C w0 ended l w, serialised C w0 ended l w -> exists w1, one_by_one C w0 ended w1 /\ serial_ok C w1 l w.
Proof.
  intros C w0 ended l w H. induction H as [|c ended l w H (w1 & O & S1) F|ended l1 c fs l2 X o k f w x w' H (w1 & O & S1) E|ended l1 c fs l2 r w H (w1 & O & S1)|ended l1 c fs p l2 w H (w1 & O & S1)].
  - exists w0. split; [constructor|]. split; [constructor|]. split; [apply dev_refl|]. split; [intros ? ? ? []|]. repeat split.
  - exists w1. split; [exact O|]. apply serial_call; assumption.
  - exists w1. split; [exact O|]. eapply serial_op; eassumption.
  - destruct (serial_end _ _ _ _ _ _ _ _ S1) as (w2 & E & S2). exists w2. split; [|exact S2]. eapply one_snoc; [exact O|]. apply after_run. exact E.
  - destruct (serial_end _ _ _ _ _ _ _ _ S1) as (w2 & E & S2). exists w2. split; [|exact S2].
    replace w2 with (snd (after fs (body C c) w1)) by (rewrite E; reflexivity). apply one_snoc_ab. exact O.
Qed.
Theorem serial : forall C w0 ended l w, serialised C w0 ended l w ->
  exists w1, one_by_one C w0 ended w1 /\ same_device w1 w /\ unowned_same (map (fun x => fst (fst x)) l) w1 w /\
    forall c fs p, In (c, fs, p) l -> after fs (body C c) w1 = (p, snd (after fs (body C c) w1)) /\ own_same c (snd (after fs (body C c) w1)) w.
Proof.
  intros C w0 ended l w H. destruct (serial_inv _ _ _ _ _ H) as (w1 & O & (_ & D & P & U)). exists w1. split; [exact O|]. split; [exact D|]. split; [exact U|].
  intros c fs p J. destruct (P c fs p J) as (_ & Q1 & _ & Q2). split; [|exact Q2]. rewrite Q1. destruct (after fs (body C c) w1). reflexivity.
Qed.
Theorem serial_done : forall C w0 ended w, serialised C w0 ended [] w -> exists w1, one_by_one C w0 ended w1 /\ same_world w1 w.
Proof. intros C w0 ended w H. destruct (serial _ _ _ _ _ H) as (w1 & O & D & U & _). exists w1. split; [exact O|]. split; [exact D|exact U]. Qed.

(** Such executions exist: one call after the other, and two calls in any interleaving. *)
Lemma serial_run : forall C w0 ended l1 c l2 p fl fs w r w', serialised C w0 ended (l1 ++ (c, fs, p) :: l2) w -> run p fl w = (r, w') ->
  exists gs, serialised C w0 ended (l1 ++ (c, fs ++ gs, PRet r) :: l2) w'.
Proof.
  intros C w0 ended l1 c l2 p. induction p as [r0|X o k IH]; intros fl fs w r w' S1 E; cbn [run] in E.
  - injection E as <- <-. exists []. rewrite app_nil_r. exact S1.
  - destruct (exec_f o (hd_fault fl) w) as [x w1] eqn:Ex.
    destruct (IH x (tl fl) (fs ++ [hd_fault fl]) w1 r w' (se_op C w0 ended l1 c fs l2 o k _ w x w1 S1 Ex) E) as [gs Q]. exists (hd_fault fl :: gs).
    replace (fs ++ hd_fault fl :: gs) with ((fs ++ [hd_fault fl]) ++ gs) by (rewrite <- app_assoc; reflexivity). exact Q.
Qed.
Lemma serial_next : forall C w0 ended c fl w r w', serialised C w0 ended [] w -> run (body C c) fl w = (Ok r, w') -> exists fs, serialised C w0 (ended ++ [(c, fs, Some r)]) [] w'.
Proof.
  intros C w0 ended c fl w r w' S1 E. destruct (serial_run C w0 ended [] c [] (body C c) fl [] w (Ok r) w' (se_call C w0 c ended [] w S1 (Forall_nil _)) E) as [fs Q].
  exists fs. exact (se_return C w0 ended [] c fs [] r w' Q).
Qed.
Lemma serial_run2 : forall C w0 ended c1 c2 sched p q fs1 fs2 w r1 r2 w', serialised C w0 ended [(c1, fs1, p); (c2, fs2, q)] w ->
  run2 sched p q w = (Ok r1, Ok r2, w') -> exists gs1 gs2, serialised C w0 (ended ++ [(c1, gs1, Some r1); (c2, gs2, Some r2)]) [] w'.
Proof.
  intros C w0 ended c1 c2 sched. induction sched as [|b sched IH]; intros p q fs1 fs2 w r1 r2 w' S1 E; cbn [run2] in E.
  - destruct (run0 p w) as [x wa] eqn:Ea. destruct (run0 q wa) as [y wb] eqn:Eb. injection E as -> -> <-.
    destruct (serial_run C w0 ended [] c1 [(c2, fs2, q)] p [] fs1 w (Ok r1) wa S1 Ea) as [g1 S2].
    destruct (serial_run C w0 ended [(c1, fs1 ++ g1, PRet (Ok r1))] c2 [] q [] fs2 wa (Ok r2) wb S2 Eb) as [g2 S3].
    pose proof (se_return C w0 ended [] c1 _ _ r1 wb S3) as S4. pose proof (se_return C w0 _ [] c2 _ [] r2 wb S4) as S5.
    rewrite <- app_assoc in S5. eexists. eexists. exact S5.
  - destruct b.
    + destruct p as [r|X o k]; cbn [pstep] in E; [eapply IH; [exact S1|exact E]|]. destruct (exec_f o FNone w) as [x w1] eqn:Ex.
      eapply IH; [|exact E]. exact (se_op C w0 ended [] c1 fs1 _ o k FNone w x w1 S1 Ex).
    + destruct q as [r|X o k]; cbn [pstep] in E; [eapply IH; [exact S1|exact E]|]. destruct (exec_f o FNone w) as [x w1] eqn:Ex.
      eapply IH; [|exact E]. exact (se_op C w0 ended [(c1, fs1, p)] c2 fs2 [] o k FNone w x w1 S1 Ex).
Qed.
Lemma serial_pair : forall C c1 c2 sched w r1 w1 r2 w2, apart c1 c2 -> run0 (body C c1) w = (Ok r1, w1) -> run0 (body C c2) w = (Ok r2, w2) ->
  exists gs1 gs2 w', fst (run2 sched (body C c1) (body C c2) w) = (Ok r1, Ok r2) /\ serialised C w [(c1, gs1, Some r1); (c2, gs2, Some r2)] [] w'.
Proof.
  intros C c1 c2 sched w r1 w1 r2 w2 A E1 E2. destruct (run2 sched (body C c1) (body C c2) w) as [[x y] w'] eqn:E.
  assert (V : forall c, own_view c w w) by (intro c; split; [apply dev_refl|apply own_refl]).
  destruct (run2_own c1 c2 sched (body C c1) (body C c2) w w w A (body_own C c1) (body_own C c2) (V c1) (V c2) x y w' E) as (-> & -> & _).
  rewrite E1, E2 in *. cbn [fst] in *.
  destruct (serial_run2 C w [] c1 c2 sched (body C c1) (body C c2) [] [] w r1 r2 w') as (g1 & g2 & S1); [|exact E|exists g1, g2, w'; auto].
  apply se_call; [apply se_call; [apply se_none|constructor]|]. constructor; [exact A|constructor].
Qed.
