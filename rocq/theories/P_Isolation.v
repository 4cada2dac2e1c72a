(** Isolation (C37). *)
From Verif Require Import M_Base M_Crypto M_Aes M_Curve M_Proto M_Uuid M_Message M_Ratchet M_State M_Store M_Session M_Group
  S_Message S_State S_Shape S_Session S_Api S_Isolation S_Uuid P_Base P_Uuid P_Prog.

Definition in_scope (sc : scope) : forall X, op X -> Prop :=
  match sc with OwnSession a => in_sess a | OwnGroup a d => in_group a d end.

Notation sall a := (pall (in_sess a) any_ans).
Notation gall a d := (pall (in_group a d) any_ans).

Ltac footprint :=
  repeat match goal with
  | |- pall _ _ (pdo _ _) => apply pall_do; [first [exact I|reflexivity|split; reflexivity]|intros ? _]
  | |- pall _ _ (plift _ _) => apply pall_lift; intros ? _
  | |- pall _ _ (PRet _) => exact I
  | |- pall _ _ (if ?b then _ else _) => destruct b
  | |- pall _ _ (match ?x with _ => _ end) => destruct x
  | |- pall _ _ (let _ := _ in _) => cbv zeta
  end.

Lemma pres_true : forall (ans : forall X, op X -> res X -> Prop) {A} (p : prog A), pres ans (fun _ => True) p.
Proof. intros ans A p. induction p as [r|X o k IH]; cbn; auto. Qed.

Lemma process_prekey_v3_scope : forall C a existed r m, sall a (process_prekey_v3 C a existed r m).
Proof. intros. unfold process_prekey_v3. footprint. Qed.
Lemma process_prekey_scope : forall C a existed r m, sall a (process_prekey C a existed r m).
Proof.
  intros. unfold process_prekey. footprint.
  eapply pall_seq; [apply process_prekey_v3_scope|apply pres_true|]. intros [r' i] _. footprint.
Qed.
Lemma decrypt_prekey_scope : forall C a rnd m, sall a (decrypt_prekey C a rnd m).
Proof.
  intros. unfold decrypt_prekey. footprint;
  (eapply pall_seq; [apply process_prekey_scope|apply pres_true|]); intros [r' i] _; footprint.
Qed.

Lemma calls_scope : forall C c, let '@Thread A p := start C c in pall (in_scope (scope_of c)) any_ans p.
Proof.
  intros C [a rnd b|a pt|a rnd m|a m|a d sr rnd|a d rnd pt|a m]; cbn [start scope_of in_scope].
  - unfold process_bundle. footprint.
  - unfold encrypt_message. footprint.
  - destruct m; cbn [decrypt_message]; try exact I; [|apply decrypt_prekey_scope]. unfold decrypt_signal. footprint.
  - unfold process_dist. footprint.
  - unfold new_sender_dist. footprint.
  - unfold gencrypt. footprint.
  - unfold gdecrypt. footprint.
Qed.

Lemma outside_refl : forall sc w, outside_same sc w w.
Proof. intros sc w. unfold outside_same. destruct sc; repeat split; auto. Qed.
Lemma outside_trans : forall sc w1 w2 w3, outside_same sc w1 w2 -> outside_same sc w2 w3 -> outside_same sc w1 w3.
Proof.
  intros sc w1 w2 w3 (A1 & A2 & A3 & A4 & A5 & A6) (B1 & B2 & B3 & B4 & B5 & B6).
  unfold outside_same. split; [congruence|]. split; [congruence|]. split; [congruence|]. split; [congruence|].
  split; [congruence|]. destruct sc.
  - destruct A6 as [A6 A7], B6 as [B6 B7]. split; [|congruence]. intros b N. specialize (A6 b N). specialize (B6 b N).
    destruct A6, B6. split; congruence.
  - destruct A6 as (A6 & A7 & A8 & A9), B6 as (B6 & B7 & B8 & B9). split; [congruence|]. split; [congruence|].
    split; [congruence|]. intros b e N. rewrite B9, A9; auto.
Qed.

Lemma distid_eqb_spec : forall a b, distid_eqb a b = true <-> a = b.
Proof. intros. unfold distid_eqb. apply bytes_eqb_eq. Qed.

Lemma exec_outside : forall sc X (o : op X) w, in_scope sc X o -> outside_same sc w (snd (exec o w)).
Proof.
  intros sc X o w K.
  assert (S : forall a b r, b <> a -> w_sess (set_sess w a r) b = w_sess w b).
  { intros a b r N. cbn [w_sess set_sess]. apply addr_eqb_neq in N. rewrite N. reflexivity. }
  assert (D : forall a b r, b <> a -> w_ident (set_ident w a r) b = w_ident w b).
  { intros a b r N. cbn [w_ident set_ident]. apply addr_eqb_neq in N. rewrite N. reflexivity. }
  assert (G : forall a d b e r, (b, e) <> (a, d) -> w_groups (set_group w a d r) b e = w_groups w b e).
  { intros a d b e r N. cbn [w_groups set_group]. destruct (addr_eqb b a && distid_eqb e d) eqn:Q; [|reflexivity].
    apply andb_prop in Q. destruct Q as [Q1 Q2]. apply addr_eqb_eq in Q1. apply distid_eqb_spec in Q2. congruence. }
  destruct sc as [a|a d]; destruct o; cbn [in_scope in_sess in_group] in K; try contradiction;
    cbn [exec snd]; try apply outside_refl; try (subst a0); try (destruct K; subst);
    try (destruct (w_shared w); [|apply outside_refl]);
    unfold outside_same; repeat split; auto.
Qed.
Lemma exec_f_outside : forall sc X (o : op X) f w, in_scope sc X o -> outside_same sc w (snd (exec_f o f w)).
Proof.
  intros sc X o f w K. destruct (exec_f_cases X o f w) as [E|E]; rewrite E; [apply outside_refl|apply exec_outside; exact K].
Qed.

(** Writes: nothing outside the scope changes, whatever fails and wherever it stops. *)
Theorem call_writes_scope : forall C c fs w, let '@Thread A p := start C c in
  outside_same (scope_of c) w (snd (run p fs w)) /\
  forall n, outside_same (scope_of c) w (crash n p fs w).
Proof.
  intros C c fs w. pose proof (calls_scope C c) as K. destruct (start C c) as [A p].
  apply (run_crash_inv (outside_same (scope_of c)) p (in_scope (scope_of c))).
  - apply outside_refl.
  - apply outside_trans.
  - intros. apply exec_f_outside. assumption.
  - exact K.
Qed.

(** Reads: the result and the effect on the scope depend on the scope only. *)
Lemma exec_view : forall sc X (o : op X) w w', in_scope sc X o -> same_view sc w w' ->
  fst (exec o w') = fst (exec o w) /\ same_view sc (snd (exec o w)) (snd (exec o w')).
Proof.
  intros sc X o w w' K (V0 & V).
  destruct sc as [a|a d]; destruct o; cbn [in_scope in_sess in_group] in K; try contradiction;
    try (subst a0); try (destruct K; subst);
    [destruct V as (V1 & V2 & V3 & V4 & V5 & V6 & V7)..| | |];
    cbn [exec fst snd];
    try (split; [|split; [exact V0|cbn; repeat split; auto]]; congruence || (rewrite ?V1, ?V2, ?V3, ?V4, ?V5, ?V6, ?V7; reflexivity)).
  - split; [reflexivity|]. rewrite V0. destruct (w_shared w) eqn:Q; (split; [cbn; congruence|]); cbn; rewrite ?addr_eqb_refl; repeat split; auto.
  - split; [reflexivity|]. split; [exact V0|]. cbn. repeat split; auto. intro i. rewrite V4. reflexivity.
  - split; [reflexivity|]. split; [exact V0|]. cbn. rewrite addr_eqb_refl. unfold distid_eqb. rewrite bytes_eqb_refl. reflexivity.
  - split; [reflexivity|]. rewrite V0. destruct (w_shared w) eqn:Q; (split; [cbn; congruence|]); cbn; [|exact V].
    rewrite addr_eqb_refl. unfold distid_eqb. rewrite bytes_eqb_refl. reflexivity.
Qed.
Lemma exec_f_view : forall sc X (o : op X) f w w', in_scope sc X o -> same_view sc w w' ->
  fst (exec_f o f w') = fst (exec_f o f w) /\ same_view sc (snd (exec_f o f w)) (snd (exec_f o f w')).
Proof.
  intros sc X o f w w' K V. destruct (exec_view sc X o w w' K V) as [E1 E2]. unfold exec_f.
  destruct (exec o w) as [x w1], (exec o w') as [x' w1']. cbn [fst snd] in *. subst x'.
  destruct (fallible o); [destruct f|]; cbn [fst snd]; auto.
Qed.
Theorem call_reads_scope : forall C c fs w w', same_view (scope_of c) w w' -> let '@Thread A p := start C c in
  fst (run p fs w') = fst (run p fs w) /\ same_view (scope_of c) (snd (run p fs w)) (snd (run p fs w')).
Proof.
  intros C c fs w w' V. pose proof (calls_scope C c) as K. destruct (start C c) as [A p].
  revert fs w w' V. induction p as [r|X o k IH]; intros fs w w' V; cbn [run]; [auto|].
  destruct K as [K1 K2]. pose proof (exec_f_view _ _ _ (hd_fault fs) _ _ K1 V) as [E1 E2].
  destruct (exec_f o (hd_fault fs) w) as [x w1], (exec_f o (hd_fault fs) w') as [x' w1']. cbn [fst snd] in *. subst x'.
  apply IH; [apply K2; exact I|exact E2].
Qed.
