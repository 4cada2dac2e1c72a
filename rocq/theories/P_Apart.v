(** Calls that are apart do not influence each other (C67). *)
From Verif Require Import M_Base M_Crypto M_Aes M_Curve M_Proto M_Uuid M_Message M_Ratchet M_State M_Store M_Session M_Group
  S_Message S_State S_Shape S_Session S_Api S_Isolation S_Apart P_Base P_Uuid P_Prog P_Isolation.
From Coq Require Import List.
Local Open Scope nat_scope.

Definition own_op (c : call) : forall X, op X -> Prop := fun X o =>
  in_scope (scope_of c) X o /\ match o with OLoadPreKey i | ODeletePreKey i => prekey_named c = Some i | _ => True end.
Definition names (id : option N) : forall X, op X -> Prop := fun X o =>
  match o with OLoadPreKey i | ODeletePreKey i => id = Some i | _ => True end.

Ltac foot := repeat match goal with
  | |- pall _ _ (pdo _ _) => apply pall_do; [first [exact I|reflexivity|assumption]|intros ? _]
  | |- pall _ _ (plift _ _) => apply pall_lift; intros ? _
  | |- pall _ _ (PRet _) => exact I
  | |- pall _ _ (if ?b then _ else _) => destruct b
  | |- pall _ _ (match ?x with _ => _ end) => destruct x eqn:?
  | |- pall _ _ (let _ := _ in _) => cbv zeta
  end.
Ltac fres := repeat match goal with
  | |- pres _ _ (pdo _ _) => apply pres_do; intros ? _
  | |- pres _ _ (plift _ _) => apply pres_lift; intros ? _
  | |- pres _ _ (PRet (Err _)) => intros ? E; discriminate E
  | |- pres _ _ (PRet Panic) => intros ? E; discriminate E
  | |- pres _ _ (if ?b then _ else _) => destruct b
  | |- pres _ _ (match ?x with _ => _ end) => destruct x eqn:?
  | |- pres _ _ (let _ := _ in _) => cbv zeta
  end.
Definition mine (m : prekeymsg) (x : record * option N) : Prop := snd x = None \/ snd x = pm_prekey_id m.
Lemma v3_mine : forall C a ex r m, pres any_ans (mine m) (process_prekey_v3 C a ex r m).
Proof. intros. unfold process_prekey_v3. fres; intros y E; injection E as <-; first [left; reflexivity|right; reflexivity|right; symmetry; assumption]. Qed.
Lemma process_mine : forall C a ex r m, pres any_ans (mine m) (process_prekey C a ex r m).
Proof.
  intros. unfold process_prekey. fres. eapply pres_seq; [apply v3_mine|]. intros [r' i] M. fres. intros y E. injection E as <-. exact M.
Qed.
Lemma v3_names : forall C a ex r m, pall (names (pm_prekey_id m)) any_ans (process_prekey_v3 C a ex r m).
Proof. intros. unfold process_prekey_v3. foot. Qed.
Lemma process_names : forall C a ex r m, pall (names (pm_prekey_id m)) any_ans (process_prekey C a ex r m).
Proof.
  intros. unfold process_prekey. foot. eapply pall_seq; [apply v3_names|apply pres_true|]. intros [r' i] _. foot.
Qed.
Lemma decrypt_names : forall C a rnd m, pall (names (pm_prekey_id m)) any_ans (decrypt_prekey C a rnd m).
Proof.
  intros. unfold decrypt_prekey. foot;
  (eapply pall_seq; [apply process_names|apply process_mine|]); intros [r' i] [M|M]; cbn [snd] in M; rewrite M; foot.
Qed.
Lemma pall_and : forall (ok1 ok2 : forall X, op X -> Prop) (ans : forall X, op X -> res X -> Prop) {A} (p : prog A),
  pall ok1 ans p -> pall ok2 ans p -> pall (fun X o => ok1 X o /\ ok2 X o) ans p.
Proof. intros ok1 ok2 ans A p. induction p as [r|X o k IH]; [auto|]. intros [P1 P2] [Q1 Q2]. split; [auto|]. intros x Hx. auto. Qed.
Lemma calls_own : forall C c, let '@Thread A p := start C c in pall (own_op c) any_ans p.
Proof.
  intros C c. pose proof (calls_scope C c) as S1.
  assert (S2 : let '@Thread A p := start C c in pall (names (prekey_named c)) any_ans p).
  { destruct c as [a rnd b|a pt|a rnd m|a m|a d sr rnd|a d rnd pt|a m]; cbn [start].
    - unfold process_bundle. foot.
    - unfold encrypt_message. foot.
    - destruct m; cbn [decrypt_message prekey_named]; try exact I; [|apply decrypt_names]. unfold decrypt_signal. foot.
    - unfold process_dist. foot.
    - unfold new_sender_dist. foot.
    - unfold gencrypt. foot.
    - unfold gdecrypt. foot. }
  destruct (start C c) as [A p]. apply pall_and; assumption.
Qed.

Definition own_view (c : call) (w w' : world) : Prop := same_device w w' /\ own_same c w w'.
(** Everything that [c] does not own. *)
Definition rest_same (c : call) (w w' : world) : Prop :=
  same_device w w' /\ match scope_of c with
  | OwnSession a => (forall b, b <> a -> w_sess w' b = w_sess w b /\ w_ident w' b = w_ident w b) /\
      (forall id, prekey_named c <> Some id -> w_prekeys w' id = w_prekeys w id) /\ (forall b d, w_groups w' b d = w_groups w b d)
  | OwnGroup a d => (forall b, w_sess w' b = w_sess w b /\ w_ident w' b = w_ident w b) /\ (forall id, w_prekeys w' id = w_prekeys w id) /\
      (forall b e, (b, e) <> (a, d) -> w_groups w' b e = w_groups w b e)
  end.
Lemma same_device_exec : forall X (o : op X) w, same_device w (snd (exec o w)).
Proof. intros X o w. destruct o; cbn [exec snd]; try (destruct (w_shared w) eqn:Q); repeat split; cbn; auto. Qed.
Lemma dev_refl : forall w, same_device w w. Proof. repeat split. Qed.
Lemma dev_trans : forall w1 w2 w3, same_device w1 w2 -> same_device w2 w3 -> same_device w1 w3.
Proof. intros w1 w2 w3 (A1 & A2 & A3 & A4 & A5) (B1 & B2 & B3 & B4 & B5). repeat split; congruence. Qed.
Lemma dev_sym : forall w1 w2, same_device w1 w2 -> same_device w2 w1.
Proof. intros w1 w2 (A1 & A2 & A3 & A4 & A5). repeat split; congruence. Qed.
Lemma own_refl : forall c w, own_same c w w. Proof. intros. unfold own_same. destruct (scope_of c); auto. Qed.
Lemma own_trans : forall c w1 w2 w3, own_same c w1 w2 -> own_same c w2 w3 -> own_same c w1 w3.
Proof.
  intros c w1 w2 w3 A B. unfold own_same in *. destruct (scope_of c); [|congruence]. destruct A as (A1 & A2 & A3), B as (B1 & B2 & B3).
  split; [congruence|]. split; [congruence|]. intros id E. rewrite B3, A3; auto.
Qed.
Lemma rest_refl : forall c w, rest_same c w w. Proof. intros. split; [apply dev_refl|]. destruct (scope_of c); repeat split. Qed.
Lemma rest_trans : forall c w1 w2 w3, rest_same c w1 w2 -> rest_same c w2 w3 -> rest_same c w1 w3.
Proof.
  intros c w1 w2 w3 [D1 A] [D2 B]. split; [eapply dev_trans; eassumption|]. destruct (scope_of c); destruct A as (A1 & A2 & A3), B as (B1 & B2 & B3).
  - split; [|split].
    + intros b N0. destruct (A1 b N0), (B1 b N0). split; congruence.
    + intros id N0. rewrite B2, A2; auto.
    + intros. rewrite B3, A3; auto.
  - split; [|split].
    + intros b. destruct (A1 b), (B1 b). split; congruence.
    + intros id. rewrite B2, A2; auto.
    + intros. rewrite B3, A3; auto.
Qed.
Lemma exec_rest : forall c X (o : op X) w, own_op c X o -> rest_same c w (snd (exec o w)).
Proof.
  intros c X o w [K1 K2]. split; [apply same_device_exec|]. pose proof (exec_outside _ _ _ w K1) as (_ & _ & _ & _ & _ & Q).
  destruct (scope_of c) as [a|a d].
  - destruct Q as [Q1 Q2]. split; [exact Q1|]. split; [|intros; rewrite Q2; reflexivity]. intros id N0.
    destruct o; cbn [exec snd]; try (destruct (w_shared w)); cbn; auto.
    all: match goal with |- context[N.eqb ?x ?y] => destruct (N.eqb_spec x y); [subst; contradiction|reflexivity] end.
  - destruct Q as (Q1 & Q2 & Q3 & Q4). split; [intro; rewrite Q1, Q2; auto|]. split; [intro; rewrite Q3; reflexivity|exact Q4].
Qed.
Lemma exec_own : forall c X (o : op X) w w', own_op c X o -> own_view c w w' ->
  fst (exec o w') = fst (exec o w) /\ own_view c (snd (exec o w)) (snd (exec o w')).
Proof.
  intros c X o w w' [K1 K2] [(D1 & D2 & D3 & D4 & D5) V].
  assert (Dv : same_device (snd (exec o w)) (snd (exec o w'))).
  { eapply dev_trans; [apply dev_sym, same_device_exec|]. eapply dev_trans; [|apply same_device_exec]. repeat split; assumption. }
  unfold own_view. unfold own_same in *. destruct (scope_of c) as [a|a d].
  - destruct V as (V1 & V2 & V3).
    destruct o; cbn [in_scope in_sess] in K1; try contradiction; try (subst a0); cbn [exec fst snd] in *.
    all: try (split; [congruence || (rewrite ?V1, ?V2, ?D1, ?D4; auto)|split; [exact Dv|]]).
    all: try (rewrite D5 in *; destruct (w_shared w)); cbn [w_sess w_ident w_prekeys set_sess set_ident del_prekey]; rewrite ?addr_eqb_refl; auto.
    split; [exact V1|]. split; [exact V2|]. intros i E. rewrite (V3 i E). reflexivity.
  - destruct o; cbn [in_scope in_group] in K1; try contradiction; try (destruct K1; subst); cbn [exec fst snd] in *.
    + auto.
    + split; [reflexivity|]. split; [exact Dv|]. cbn. rewrite addr_eqb_refl. unfold distid_eqb. rewrite bytes_eqb_refl. reflexivity.
    + split; [reflexivity|]. split; [exact Dv|]. rewrite D5 in *. destruct (w_shared w); cbn; [|exact V]. rewrite addr_eqb_refl. unfold distid_eqb. rewrite bytes_eqb_refl. reflexivity.
Qed.
Lemma exec_f_own : forall c X (o : op X) f w w', own_op c X o -> own_view c w w' ->
  fst (exec_f o f w') = fst (exec_f o f w) /\ own_view c (snd (exec_f o f w)) (snd (exec_f o f w')).
Proof.
  intros c X o f w w' K V. destruct (exec_own c X o w w' K V) as [E1 E2]. unfold exec_f.
  destruct (exec o w) as [x w1], (exec o w') as [x' w1']. cbn [fst snd] in *. subst x'.
  destruct (fallible o); [destruct f|]; cbn [fst snd]; auto.
Qed.
Lemma exec_f_rest : forall c X (o : op X) f w, own_op c X o -> rest_same c w (snd (exec_f o f w)).
Proof.
  intros c X o f w K. destruct (exec_f_cases X o f w) as [E|E]; rewrite E; [apply rest_refl|apply exec_rest; exact K].
Qed.
Lemma apart_sym : forall c1 c2, apart c1 c2 -> apart c2 c1.
Proof.
  intros c1 c2. unfold apart. destruct (scope_of c1), (scope_of c2); auto. intros [A1 A2]. split; [auto|].
  destruct (prekey_named c2) as [i|]; [right|left; reflexivity]. destruct A2 as [A2|A2]; congruence.
Qed.
Lemma apart_own : forall c1 c2 w w', apart c1 c2 -> rest_same c1 w w' -> own_same c2 w w'.
Proof.
  intros c1 c2 w w' A [_ R]. unfold apart, own_same in *. destruct (scope_of c1) as [a|a d], (scope_of c2) as [b|b e]; destruct R as (R1 & R2 & R3).
  - destruct A as [A1 A2]. destruct (R1 b) as [Q1 Q2]; [auto|]. split; [exact Q1|]. split; [exact Q2|]. intros id E. apply R2. destruct A2; congruence.
  - apply R3.
  - destruct (R1 b). auto.
  - apply R3. auto.
Qed.

(** The executions. *)
Definition pending (C : Crypto) (w0 w : world) (c : call) (fs : list fault) (t : thread) : Prop :=
  (let '@Thread A p := t in pall (own_op c) any_ans p) /\
  let '@Thread A p := start C c in t = Thread (fst (after fs p w0)) /\ own_view c (snd (after fs p w0)) w.
Lemma after_app : forall {A} fs gs (p : prog A) w, after (fs ++ gs) p w = let '(p', w') := after fs p w in after gs p' w'.
Proof. intros A fs. induction fs as [|f fs IH]; intros gs p w; cbn [after app]; [reflexivity|]. destruct (pstep p f w). apply IH. Qed.
Definition calls_of (l : list (call * list fault * thread)) : list call := map (fun x => fst (fst x)) l.
Lemma pairs_mid : forall (R : call -> call -> Prop) l1 c l2, (forall x y, R x y -> R y x) -> ForallOrdPairs R (l1 ++ c :: l2) ->
  forall x, In x l1 \/ In x l2 -> R c x.
Proof.
  intros R l1. induction l1 as [|y l1 IH]; intros c l2 Sy F x J; cbn [app] in F; inversion F as [|? ? F1 F2]; subst.
  - destruct J as [[]|J]. rewrite Forall_forall in F1. auto.
  - destruct J as [[->|J]|J]; [|eapply IH; eauto..]. apply Sy. rewrite Forall_forall in F1. apply F1. apply in_or_app. right. left. reflexivity.
Qed.
Lemma thread_inj : forall C c fs A X (o : op X) (k : res X -> prog A) w0 w f x w', pending C w0 w c fs (Thread (PDo o k)) -> exec_f o f w = (x, w') ->
  pending C w0 w' c (fs ++ [f]) (Thread (k x)) /\ own_op c X o.
Proof.
  intros C c fs A X o k w0 w f x w' [[P1 P2] P3] E. split; [|exact P1]. split; [apply P2; exact I|].
  destruct (start C c) as [B p]. destruct P3 as [P3 P4]. rewrite after_app. destruct (after fs p w0) as [p' wa]. cbn [fst snd] in *.
  assert (Q : forall (t : thread), t = Thread p' -> match t with Thread (PDo o0 k0) => own_op c _ o0 -> 
     own_view c wa w -> forall x w', exec_f o0 f w = (x, w') -> Thread (k0 x) = Thread (fst (after [f] p' wa)) /\ own_view c (snd (after [f] p' wa)) w' | _ => True end).
  { intros t ->. destruct p' as [r|Y o0 k0]; [exact I|]. intros K V y w2 E2. destruct (exec_f_own c Y o0 f wa w K V) as [Q1 Q2]. rewrite E2 in Q1, Q2.
    cbn [after pstep]. destruct (exec_f o0 f wa) as [y' w3]. cbn [fst snd] in *. subst y. split; [reflexivity|exact Q2]. }
  specialize (Q _ P3). cbn beta iota in Q. exact (Q P1 P4 _ _ E).
Qed.
Lemma side_inv : forall C w0 l w, side_by_side C w0 l w ->
  ForallOrdPairs apart (calls_of l) /\ same_device w0 w /\
  (forall c fs t, In (c, fs, t) l -> pending C w0 w c fs t) /\
  (forall c, (forall x, In x (calls_of l) -> apart x c) -> own_same c w0 w).
Proof.
  intros C w0 l w H. induction H as [|c l w H (I1 & I2 & I3 & I4) F|l1 c fs l2 A X o k f w x w' H (I1 & I2 & I3 & I4) E].
  - split; [constructor|]. split; [apply dev_refl|]. split; [intros ? ? ? []|intros; apply own_refl].
  - assert (Fa : Forall (apart c) (calls_of l)) by (unfold calls_of; rewrite Forall_map; exact F).
    split; [constructor; assumption|]. split; [exact I2|]. split.
    + intros c' fs t [J|J]; [|auto]. injection J as <- <- <-. split; [apply calls_own|]. destruct (start C c) as [A p]. split; [reflexivity|].
      split; [exact I2|]. apply I4. rewrite Forall_forall in Fa. intros y J. apply apart_sym. auto.
    + intros c' J. apply I4. intros y Jy. apply J. right. exact Jy.
  - assert (Ec : forall fs t, calls_of (l1 ++ (c, fs, t) :: l2) = calls_of l1 ++ c :: calls_of l2) by (intros; unfold calls_of; rewrite map_app; reflexivity).
    rewrite Ec in *. destruct (thread_inj C c fs A X o k w0 w f x w') as [Pn Ko]; [apply I3, in_elt|exact E|].
    assert (R : rest_same c w w') by (replace w' with (snd (exec_f o f w)) by (rewrite E; reflexivity); apply exec_f_rest; exact Ko).
    split; [exact I1|]. split; [eapply dev_trans; [exact I2|apply R]|]. split.
    + intros c' fs' t' J. apply in_app_or in J. cbn [In] in J.
      assert (Oth : In (c', fs', t') l1 \/ In (c', fs', t') l2 -> pending C w0 w' c' fs' t').
      { intro J'. assert (J2 : In (c', fs', t') (l1 ++ (c, fs, Thread (PDo o k)) :: l2)) by (apply in_or_app; cbn [In]; tauto).
        destruct (I3 _ _ _ J2) as [Q1 Q2]. split; [exact Q1|]. destruct (start C c') as [B p]. destruct Q2 as [Q2 [Q3 Q4]]. split; [exact Q2|].
        split; [eapply dev_trans; [exact Q3|apply R]|]. eapply own_trans; [exact Q4|]. apply (apart_own c c'); [|exact R].
        apply (pairs_mid apart (calls_of l1) c (calls_of l2) apart_sym I1). unfold calls_of. destruct J' as [J'|J']; [left|right]; exact (in_map (fun x => fst (fst x)) _ _ J'). }
      destruct J as [J|[J|J]]; [auto| |auto]. injection J as <- <- <-. exact Pn.
    + intros c' J. eapply own_trans; [apply I4; exact J|]. apply (apart_own c c'); [|exact R]. apply J. apply in_or_app. right. left. reflexivity.
Qed.
Theorem side_alone : forall C w0 l w, side_by_side C w0 l w ->
  (forall c fs t, In (c, fs, t) l -> let '@Thread A p := start C c in
     t = Thread (fst (after fs p w0)) /\ own_same c (snd (after fs p w0)) w) /\
  same_device w0 w /\ forall c, (forall c' fs t, In (c', fs, t) l -> apart c' c) -> own_same c w0 w.
Proof.
  intros C w0 l w H. destruct (side_inv C w0 l w H) as (_ & D & P & O). split; [|split; [exact D|]].
  - intros c fs t J. destruct (P c fs t J) as [_ Q]. destruct (start C c). destruct Q as [Q1 [_ Q2]]. auto.
  - intros c J. apply O. intros x Jx. unfold calls_of in Jx. apply in_map_iff in Jx. destruct Jx as ([[c' fs] t] & <- & Jx). exact (J _ _ _ Jx).
Qed.

(** Two calls. *)
Lemma own_view_trans : forall c w1 w2 w3, own_view c w1 w2 -> own_view c w2 w3 -> own_view c w1 w3.
Proof. intros c w1 w2 w3 [A1 A2] [B1 B2]. split; [eapply dev_trans|eapply own_trans]; eassumption. Qed.
Lemma apart_view : forall c1 c2 w w', apart c1 c2 -> rest_same c1 w w' -> own_view c2 w w'.
Proof. intros c1 c2 w w' A R. split; [apply R|eapply apart_own; eassumption]. Qed.
Lemma step_own : forall c {A} (p : prog A) w w', pall (own_op c) any_ans p -> own_view c w w' ->
  fst (pstep p FNone w') = fst (pstep p FNone w) /\ own_view c (snd (pstep p FNone w)) (snd (pstep p FNone w')) /\
  rest_same c w' (snd (pstep p FNone w')) /\ pall (own_op c) any_ans (fst (pstep p FNone w)).
Proof.
  intros c A p w w' P V. destruct p as [r|X o k]; cbn [pstep fst snd].
  - split; [reflexivity|]. split; [exact V|]. split; [apply rest_refl|exact P].
  - destruct P as [P1 P2]. destruct (exec_f_own c X o FNone w w' P1 V) as [E1 E2]. pose proof (exec_f_rest c X o FNone w' P1) as R.
    destruct (exec_f o FNone w) as [x w1], (exec_f o FNone w') as [x' w1']. cbn [fst snd] in *. subst x'.
    split; [reflexivity|]. split; [exact E2|]. split; [exact R|apply P2; exact I].
Qed.
Lemma run_own : forall c {A} (p : prog A) w w', pall (own_op c) any_ans p -> own_view c w w' ->
  fst (run0 p w') = fst (run0 p w) /\ own_view c (snd (run0 p w)) (snd (run0 p w')) /\ rest_same c w' (snd (run0 p w')).
Proof.
  intros c A p. induction p as [r|X o k IH]; intros w w' P V; unfold run0 in *; cbn [run].
  - split; [reflexivity|]. split; [exact V|apply rest_refl].
  - destruct P as [P1 P2]. cbn [hd_fault tl]. destruct (exec_f_own c X o FNone w w' P1 V) as [E1 E2]. pose proof (exec_f_rest c X o FNone w' P1) as R.
    destruct (exec_f o FNone w) as [x w1], (exec_f o FNone w') as [x' w1']. cbn [fst snd] in *. subst x'.
    destruct (IH x w1 w1' (P2 x I) E2) as (Q1 & Q2 & Q3). split; [exact Q1|]. split; [exact Q2|]. eapply rest_trans; eassumption.
Qed.
Lemma run0_step : forall {A} (p : prog A) w, run0 p w = run0 (fst (pstep p FNone w)) (snd (pstep p FNone w)).
Proof. intros A [r|X o k] w; [reflexivity|]. unfold run0. cbn [run pstep hd_fault tl]. destruct (exec_f o FNone w). reflexivity. Qed.
Lemma run2_own : forall c1 c2 {A B} sched (p : prog A) (q : prog B) w wp wq, apart c1 c2 ->
  pall (own_op c1) any_ans p -> pall (own_op c2) any_ans q -> own_view c1 wp w -> own_view c2 wq w ->
  forall x y w', run2 sched p q w = (x, y, w') ->
  x = fst (run0 p wp) /\ y = fst (run0 q wq) /\ own_view c1 (snd (run0 p wp)) w' /\ own_view c2 (snd (run0 q wq)) w'.
Proof.
  intros c1 c2 A B sched. induction sched as [|[|] s IH]; intros p q w wp wq Ap P Q V1 V2 x y w' E; cbn [run2] in E.
  - destruct (run_own c1 p wp w P V1) as (R1 & R2 & R3). destruct (run0 p w) as [xa w1]. cbn [fst snd] in *.
    destruct (run_own c2 q wq w1 Q (own_view_trans _ _ _ _ V2 (apart_view _ _ _ _ Ap R3))) as (S1 & S2 & S3). destruct (run0 q w1) as [yb w2].
    cbn [fst snd] in *. injection E as <- <- <-. split; [exact R1|]. split; [exact S1|]. split; [|exact S2].
    eapply own_view_trans; [exact R2|]. apply (apart_view c2 c1); [apply apart_sym; exact Ap|exact S3].
  - destruct (step_own c1 p wp w P V1) as (R1 & R2 & R3 & R4). rewrite (run0_step p wp).
    destruct (pstep p FNone w) as [p1 w1]. cbn [fst snd] in *. subst p1.
    eapply IH; [exact Ap|exact R4|exact Q|exact R2| |exact E]. eapply own_view_trans; [exact V2|]. eapply apart_view; eassumption.
  - destruct (step_own c2 q wq w Q V2) as (R1 & R2 & R3 & R4). rewrite (run0_step q wq).
    destruct (pstep q FNone w) as [q1 w1]. cbn [fst snd] in *. subst q1.
    eapply IH; [exact Ap|exact P|exact R4| |exact R2|exact E]. eapply own_view_trans; [exact V1|]. apply (apart_view c2 c1); [apply apart_sym; exact Ap|exact R3].
Qed.
Theorem pair_alone : forall C c1 c2 sched w, apart c1 c2 ->
  match start C c1, start C c2 with
  | Thread p, Thread q => forall x y w', run2 sched p q w = (x, y, w') ->
      x = fst (run0 p w) /\ y = fst (run0 q w) /\ own_same c1 (snd (run0 p w)) w' /\ own_same c2 (snd (run0 q w)) w'
  end.
Proof.
  intros C c1 c2 sched w Ap. pose proof (calls_own C c1) as O1. pose proof (calls_own C c2) as O2.
  destruct (start C c1) as [A p], (start C c2) as [B q]. intros x y w' E.
  assert (V : forall c, own_view c w w) by (intro; split; [apply dev_refl|apply own_refl]).
  destruct (run2_own c1 c2 sched p q w w w Ap O1 O2 (V c1) (V c2) x y w' E) as (Q1 & Q2 & [_ Q3] & [_ Q4]). auto.
Qed.
