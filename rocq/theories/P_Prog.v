(** Programs over the stores: invariants of all executions, footprints. *)
From Verif Require Import M_Base M_Crypto M_Curve M_Uuid M_Message M_Ratchet M_State M_Store M_Session M_Group
  S_Message S_State S_Shape S_Session S_Api P_Base.

(** Every store call of the program satisfies [ok], provided every answer satisfies [ans]. *)
Fixpoint pall (ok : forall X, op X -> Prop) (ans : forall X, op X -> res X -> Prop) {A} (p : prog A) : Prop :=
  match p with
  | PRet _ => True
  | PDo o k => ok _ o /\ forall x, ans _ o x -> pall ok ans (k x)
  end.

Section Pall.
Variable ok : forall X, op X -> Prop.
Variable ans : forall X, op X -> res X -> Prop.

Lemma pall_do : forall {A X} (o : op X) (k : X -> prog A), ok X o ->
  (forall x, ans X o (Ok x) -> pall ok ans (k x)) -> pall ok ans (pdo o k).
Proof.
  intros A X o k H K. split; [exact H|]. intros [x|e|] Hx; [auto|exact I|exact I].
Qed.
Lemma pall_lift : forall {A X} (r : res X) (k : X -> prog A),
  (forall x, r = Ok x -> pall ok ans (k x)) -> pall ok ans (plift r k).
Proof. intros A X [x|e|] k K; cbn; auto. Qed.
Lemma pall_bind : forall {A B} (p : prog A) (f : res A -> prog B) (Q : A -> Prop),
  pall ok ans p ->
  (forall r, pall ok ans (f r)) -> pall ok ans (pbind p f).
Proof.
  intros A B p f Q. induction p as [r|X o k IH]; intros P F; cbn [pbind]; [apply F|].
  destruct P as [P1 P2]. split; [exact P1|]. intros x Hx. apply IH; auto.
Qed.

(** Results too. *)
Fixpoint pres {A} (Q : A -> Prop) (p : prog A) : Prop :=
  match p with
  | PRet r => forall x, r = Ok x -> Q x
  | PDo o k => forall x, ans _ o x -> pres Q (k x)
  end.
Lemma pall_seq : forall {A B} (p : prog A) (f : A -> prog B) (Q : A -> Prop),
  pall ok ans p -> pres Q p -> (forall x, Q x -> pall ok ans (f x)) -> pall ok ans (pseq p f).
Proof.
  intros A B p f Q. induction p as [r|X o k IH]; intros P R F.
  - unfold pseq. cbn [pbind]. apply pall_lift. intros x E. apply F. apply R. exact E.
  - destruct P as [P1 P2]. split; [exact P1|]. intros x Hx. apply IH; [auto|apply R; exact Hx|exact F].
Qed.
Lemma pres_do : forall {A X} (Q : A -> Prop) (o : op X) (k : X -> prog A),
  (forall x, ans X o (Ok x) -> pres Q (k x)) -> pres Q (pdo o k).
Proof. intros A X Q o k K. intros [x|e|] Hx; [auto|intros ? ?; discriminate|intros ? ?; discriminate]. Qed.
Lemma pres_lift : forall {A X} (Q : A -> Prop) (r : res X) (k : X -> prog A),
  (forall x, r = Ok x -> pres Q (k x)) -> pres Q (plift r k).
Proof. intros A X Q [x|e|] k K; cbn; auto; intros ? ?; discriminate. Qed.
Lemma pres_seq : forall {A B} (p : prog A) (f : A -> prog B) (Q : A -> Prop) (R : B -> Prop),
  pres Q p -> (forall x, Q x -> pres R (f x)) -> pres R (pseq p f).
Proof.
  intros A B p f Q R. induction p as [r|X o k IH]; intros P F.
  - unfold pseq. cbn [pbind]. apply pres_lift. intros x E. apply F. apply P. exact E.
  - intros x Hx. apply IH; auto.
Qed.

(** An invariant of the world preserved by the allowed calls holds in every execution. *)
Definition thread_all (t : thread) : Prop := let '@Thread A p := t in pall ok ans p.

Variable I : world -> Prop.
Hypothesis I_exec : forall X (o : op X) f w, I w -> ok X o ->
  I (snd (exec_f o f w)) /\ ans X o (fst (exec_f o f w)).
Variable C : Crypto.
Hypothesis I_calls : forall c, wf_call c -> thread_all (start C c).
Hypothesis I_env : forall w w', I w -> env_change w w' -> I w'.
Hypothesis I_init : forall w, empty_world w -> I w.

Lemma reachable_inv : forall c, reachable C c -> Forall thread_all (fst c) /\ I (snd c).
Proof.
  intros c R. induction R as [w W|c c' R IH S].
  - split; [constructor|]. apply I_init. exact W.
  - destruct S as [cl ts w Wc|ts1 ts2 A X o k f w x w' E|ts1 t ts2 w|ts w w' E]; cbn [fst snd] in *;
      destruct IH as [F Iw].
    + split; [|exact Iw]. constructor; auto.
    + apply Forall_app in F. destruct F as [F1 F2]. inversion F2 as [|t l T F3]; subst.
      cbn [thread_all] in T. destruct T as [T1 T2]. pose proof (I_exec X o f w Iw T1) as [I1 I2].
      rewrite E in I1, I2. cbn [fst snd] in I1, I2. split; [|exact I1].
      apply Forall_app. split; [exact F1|]. constructor; [|exact F3]. exact (T2 x I2).
    + apply Forall_app in F. destruct F as [F1 F2]. inversion F2; subst. split; [|exact Iw]. apply Forall_app. auto.
    + split; [exact F|]. eapply I_env; eauto.
Qed.
End Pall.

(** Footprints: which entries a call may name. *)
Definition in_sess (a : addr) : forall X, op X -> Prop := fun X o =>
  match o with
  | OLoadSession b | OStoreSession b _ | OTouchSession b _ | OIsTrusted b _ _ | OStoreIdentity b _ => b = a
  | OLoadGroup _ _ | OStoreGroup _ _ _ | OTouchGroup _ _ _ => False
  | _ => True
  end.
Definition in_group (a : addr) (d : distid) : forall X, op X -> Prop := fun X o =>
  match o with
  | OLoadGroup b e | OStoreGroup b e _ | OTouchGroup b e _ => b = a /\ e = d
  | _ => False
  end.
Definition any_ans : forall X, op X -> res X -> Prop := fun _ _ _ => True.

(** The rest of the world is untouched, whatever fails and wherever it stops. *)
Lemma exec_f_cases : forall X (o : op X) f w,
  (snd (exec_f o f w) = w \/ snd (exec_f o f w) = snd (exec o w)).
Proof. intros X o f w. unfold exec_f. destruct (fallible o); [destruct f|]; destruct (exec o w); cbn; auto. Qed.

Lemma run_crash_inv : forall (R : world -> world -> Prop) {A} (p : prog A) (ok : forall X, op X -> Prop),
  (forall w, R w w) -> (forall w1 w2 w3, R w1 w2 -> R w2 w3 -> R w1 w3) ->
  (forall X (o : op X) f w, ok X o -> R w (snd (exec_f o f w))) ->
  pall ok any_ans p -> forall fs w,
  R w (snd (run p fs w)) /\ forall n, R w (crash n p fs w).
Proof.
  intros R A p ok Rr Rt Ro. induction p as [r|X o k IH]; intros P fs w.
  - cbn [run]. split; [apply Rr|]. intro n. revert fs w. induction n as [|n IHn]; intros fs w; cbn [crash pstep]; auto.
  - destruct P as [P1 P2]. cbn [run]. pose proof (Ro X o (hd_fault fs) w P1) as R1.
    destruct (exec_f o (hd_fault fs) w) as [x w'] eqn:E. cbn [snd] in R1.
    destruct (IH x (P2 x I) (tl fs) w') as [I1 I2]. split; [eauto|].
    intros [|n]; [apply Rr|]. cbn [crash pstep]. rewrite E. eauto.
Qed.

(** Programs none of whose ends is a panic, provided the answers satisfy [ans]. *)
Fixpoint pnp (ans : forall X, op X -> res X -> Prop) {A} (p : prog A) : Prop :=
  match p with
  | PRet r => r <> Panic
  | PDo o k => forall x, x <> Panic -> ans _ o x -> pnp ans (k x)
  end.
Lemma exec_f_no_panic : forall X (o : op X) f w, fst (exec_f o f w) <> Panic.
Proof. intros X o f w. unfold exec_f. destruct (fallible o); [destruct f|]; destruct (exec o w); discriminate. Qed.
Lemma pnp_do : forall (ans : forall X, op X -> res X -> Prop) {A X} (o : op X) (k : X -> prog A),
  (forall x, ans X o (Ok x) -> pnp ans (k x)) -> pnp ans (pdo o k).
Proof. intros ans A X o k K [x|e|] N Hx; [auto|cbn; discriminate|congruence]. Qed.
Lemma pnp_lift : forall (ans : forall X, op X -> res X -> Prop) {A X} (r : res X) (k : X -> prog A), r <> Panic ->
  (forall x, r = Ok x -> pnp ans (k x)) -> pnp ans (plift r k).
Proof. intros ans A X [x|e|] k N K; cbn; auto; congruence. Qed.
Lemma pnp_seq : forall (ans : forall X, op X -> res X -> Prop) {A B} (p : prog A) (f : A -> prog B) (Q : A -> Prop),
  pnp ans p -> pres ans Q p -> (forall x, Q x -> pnp ans (f x)) -> pnp ans (pseq p f).
Proof.
  intros ans A B p f Q. induction p as [r|X o k IH]; intros P R F.
  - unfold pseq. cbn [pbind]. apply pnp_lift; [exact P|]. intros x E. apply F. apply R. exact E.
  - intros x N Hx. apply IH; [apply P; auto|apply R; exact Hx|exact F].
Qed.
(** In a world whose invariant makes every answer satisfy [ans]. *)
Lemma run_no_panic : forall (ok : forall X, op X -> Prop) (ans : forall X, op X -> res X -> Prop) (I : world -> Prop),
  (forall X (o : op X) f w, I w -> ok X o -> I (snd (exec_f o f w)) /\ ans X o (fst (exec_f o f w))) ->
  forall {A} (p : prog A), pall ok ans p -> pnp ans p -> forall fs w, I w -> fst (run p fs w) <> Panic.
Proof.
  intros ok ans I E A p. induction p as [r|X o k IH]; intros P N fs w Iw; [exact N|].
  cbn [run]. destruct P as [P1 P2]. destruct (E X o (hd_fault fs) w Iw P1) as [I1 A1].
  pose proof (exec_f_no_panic X o (hd_fault fs) w) as F.
  destruct (exec_f o (hd_fault fs) w) as [x w']. cbn [fst snd] in *. apply IH; auto.
Qed.
