(** Failures and crashes leave what a crash of the failure-free call leaves. *)
From Verif Require Import M_Base M_Crypto M_Aes M_Curve M_Uuid M_Proto M_Message M_Ratchet M_State M_Store M_Session M_Group
  S_Crypto S_Message S_State S_Shape S_Ratchet S_Session S_Aes S_Api S_Atomic
  P_Base P_Prog P_Bundle.
Local Open Scope nat_scope.

(** A failing store call ends the program. *)
Fixpoint strict {A} (p : prog A) : Prop :=
  match p with
  | PRet _ => True
  | @PDo _ X o k => k (Err EStore) = PRet (Err EStore) /\ forall x : X, strict (k (Ok x))
  end.
Lemma strict_do : forall {A X} (o : op X) (k : X -> prog A), (forall x, strict (k x)) -> strict (pdo o k).
Proof. intros A X o k K. split; [reflexivity|exact K]. Qed.
Lemma strict_lift : forall {A X} (r : res X) (k : X -> prog A), (forall x, strict (k x)) -> strict (plift r k).
Proof. intros A X [x|e|] k K; cbn; auto. Qed.
Lemma strict_seq : forall {A B} (p : prog A) (f : A -> prog B), strict p -> (forall x, strict (f x)) -> strict (pseq p f).
Proof.
  intros A B p f. induction p as [r|X o k IH]; intros P F.
  - unfold pseq. cbn [pbind]. apply strict_lift. exact F.
  - destruct P as [Er P]. split; [|intro x; apply IH; auto].
    cbn [pbind]. rewrite Er. reflexivity.
Qed.

Ltac strictly :=
  repeat match goal with
  | |- strict (pdo _ _) => apply strict_do; intros ?
  | |- strict (plift _ _) => apply strict_lift; intros ?
  | |- strict (PRet _) => exact I
  | |- strict (if ?b then _ else _) => destruct b
  | |- strict (match ?x with _ => _ end) => destruct x
  | |- strict (let _ := _ in _) => cbv zeta
  end.
Lemma strict_v3 : forall C a ex r m, strict (process_prekey_v3 C a ex r m).
Proof. intros. unfold process_prekey_v3. strictly. Qed.
Lemma strict_prekey : forall C a ex r m, strict (process_prekey C a ex r m).
Proof. intros. unfold process_prekey. strictly. apply strict_seq; [apply strict_v3|]. intros [r' i]. strictly. Qed.
Lemma strict_calls : forall C c, let '@Thread A p := start C c in strict p.
Proof.
  intros C [a rnd b|a pt|a rnd m|a m|a d sr rnd|a d rnd pt|a m]; cbn [start].
  - unfold process_bundle. strictly.
  - unfold encrypt_message. strictly.
  - destruct m; cbn [decrypt_message]; try exact I; [unfold decrypt_signal; strictly|].
    unfold decrypt_prekey. strictly; (apply strict_seq; [apply strict_prekey|]); intros [r' i]; strictly.
  - unfold process_dist. strictly.
  - unfold new_sender_dist. strictly.
  - unfold gencrypt. strictly.
  - unfold gdecrypt. strictly.
Qed.

(** Every world a failing or crashing call can leave is a crash point of the failure-free call. *)
Lemma exec_f_ok : forall X (o : op X) w, exec_f o FNone w = (Ok (fst (exec o w)), snd (exec o w)).
Proof. intros. unfold exec_f. destruct (fallible o); destruct (exec o w); reflexivity. Qed.
Lemma exec_f_all : forall X (o : op X) f w, exec_f o f w = exec_f o FNone w \/
  (fst (exec_f o f w) = Err EStore /\ (snd (exec_f o f w) = w \/ snd (exec_f o f w) = snd (exec_f o FNone w))).
Proof.
  intros X o f w. unfold exec_f. destruct (fallible o); [|left; reflexivity].
  destruct f; [left; reflexivity| |]; right; destruct (exec o w); auto.
Qed.
Lemma crash_reduces : forall {A} (p : prog A), strict p -> forall fs w n, exists m, crash n p fs w = crash m p [] w.
Proof.
  intros A p. induction p as [r|X o k IH]; intros P fs w n.
  - exists 0. rewrite crash_ret. reflexivity.
  - destruct P as [Er P]. destruct n as [|n]; [exists 0; reflexivity|].
    cbn [crash pstep]. destruct (exec_f_all X o (hd_fault fs) w) as [E|[E1 E2]].
    + rewrite E. rewrite exec_f_ok. destruct (IH (Ok (fst (exec o w))) (P _) (tl fs) (snd (exec o w)) n) as [m Em].
      exists (S m). cbn [crash pstep hd_fault]. rewrite exec_f_ok. exact Em.
    + destruct (exec_f o (hd_fault fs) w) as [x w']. cbn [fst snd] in E1, E2. rewrite E1, Er, crash_ret.
      destruct E2 as [-> | ->]; [exists 0; reflexivity|]. exists 1. cbn [crash pstep hd_fault].
      destruct (exec_f o FNone w); reflexivity.
Qed.
Lemma run_reduces : forall {A} (p : prog A), strict p -> forall fs w, exists m, snd (run p fs w) = crash m p [] w.
Proof.
  intros A p. induction p as [r|X o k IH]; intros P fs w.
  - exists 0. reflexivity.
  - destruct P as [Er P]. cbn [run]. destruct (exec_f_all X o (hd_fault fs) w) as [E|[E1 E2]].
    + rewrite E. rewrite exec_f_ok. destruct (IH (Ok (fst (exec o w))) (P _) (tl fs) (snd (exec o w))) as [m Em].
      exists (S m). cbn [crash pstep hd_fault]. rewrite exec_f_ok. exact Em.
    + destruct (exec_f o (hd_fault fs) w) as [x w']. cbn [fst snd] in E1, E2. rewrite E1, Er. cbn [run snd].
      destruct E2 as [-> | ->]; [exists 0; reflexivity|]. exists 1. cbn [crash pstep hd_fault].
      destruct (exec_f o FNone w); reflexivity.
Qed.
(** A successful run met no failure. *)
Lemma run_ok_clean : forall {A} (p : prog A), strict p -> forall fs w x w', run p fs w = (Ok x, w') -> run0 p w = (Ok x, w').
Proof.
  intros A p. induction p as [r|X o k IH]; intros P fs w x w' E; [exact E|].
  destruct P as [Er P]. unfold run0. cbn [run] in *. destruct (exec_f_all X o (hd_fault fs) w) as [Q|[E1 E2]].
  - rewrite Q, exec_f_ok in E. cbn [hd_fault]. rewrite exec_f_ok. apply IH in E; [|apply P]. exact E.
  - destruct (exec_f o (hd_fault fs) w) as [y w1]. cbn [fst snd] in *. rewrite E1, Er in E. discriminate E.
Qed.

(** Calls that write at most one record, after which they cannot fail by themselves. *)
Definition writes {X} (o : op X) : bool :=
  match o with OStoreSession _ _ | OStoreGroup _ _ _ => true | _ => false end.
Definition silent {X} (o : op X) : bool :=
  match o with OStoreSession _ _ | OStoreGroup _ _ _ | ODeletePreKey _ => false | _ => true end.
Lemma silent_writes : forall X (o : op X), silent o = true -> writes o = false.
Proof. intros X o E. destruct o; try reflexivity; discriminate E. Qed.
Fixpoint quiet {A} (p : prog A) : Prop :=
  match p with
  | PRet r => is_ok r
  | @PDo _ X o k => writes o = false /\ forall x : X, quiet (k (Ok x))
  end.
Fixpoint one_write {A} (p : prog A) : Prop :=
  match p with
  | PRet _ => True
  | @PDo _ X o k => forall x : X, if writes o then quiet (k (Ok x)) else silent o = true /\ one_write (k (Ok x))
  end.
Lemma one_do : forall {A X} (o : op X) (k : X -> prog A), silent o = true -> (forall x, one_write (k x)) -> one_write (pdo o k).
Proof. intros A X o k W K x. rewrite (silent_writes _ _ W). auto. Qed.
Lemma one_store : forall {A X} (o : op X) (k : X -> prog A), (forall x, quiet (k x)) -> writes o = true -> one_write (pdo o k).
Proof. intros A X o k K W x. rewrite W. apply K. Qed.
Lemma quiet_do : forall {A X} (o : op X) (k : X -> prog A), writes o = false -> (forall x, quiet (k x)) -> quiet (pdo o k).
Proof. intros A X o k W K. split; auto. Qed.
Lemma one_lift : forall {A X} (r : res X) (k : X -> prog A), (forall x, r = Ok x -> one_write (k x)) -> one_write (plift r k).
Proof. intros A X [x|e|] k K; cbn; auto. Qed.
Fixpoint no_write {A} (p : prog A) : Prop :=
  match p with
  | PRet _ => True
  | @PDo _ X o k => silent o = true /\ forall x : X, no_write (k (Ok x))
  end.
Lemma no_do : forall {A X} (o : op X) (k : X -> prog A), silent o = true -> (forall x, no_write (k x)) -> no_write (pdo o k).
Proof. intros A X o k W K. split; auto. Qed.
Lemma no_lift : forall {A X} (r : res X) (k : X -> prog A), (forall x, no_write (k x)) -> no_write (plift r k).
Proof. intros A X [x|e|] k K; cbn; auto. Qed.
Lemma no_seq : forall {A B} (p : prog A) (f : A -> prog B), no_write p -> (forall x, no_write (f x)) -> no_write (pseq p f).
Proof.
  intros A B p f. induction p as [r|X o k IH]; intros P F.
  - unfold pseq. cbn [pbind]. apply no_lift. exact F.
  - destruct P as [W P]. split; [exact W|]. intro x. apply IH; auto.
Qed.
Lemma one_seq : forall {A B} (p : prog A) (f : A -> prog B), no_write p -> (forall x, one_write (f x)) -> one_write (pseq p f).
Proof.
  intros A B p f. induction p as [r|X o k IH]; intros P F.
  - unfold pseq. cbn [pbind]. apply one_lift. auto.
  - destruct P as [W P]. intro x. rewrite (silent_writes _ _ W). split; [exact W|]. apply IH; auto.
Qed.
Ltac wonce :=
  repeat match goal with
  | |- one_write (pdo (OStoreSession _ _) _) => apply one_store; [intros ?|reflexivity]
  | |- one_write (pdo (OStoreGroup _ _ _) _) => apply one_store; [intros ?|reflexivity]
  | |- one_write (pdo _ _) => apply one_do; [reflexivity|intros ?]
  | |- one_write (plift _ _) => apply one_lift; intros ? ?
  | |- one_write (PRet _) => exact I
  | |- quiet (pdo _ _) => apply quiet_do; [reflexivity|intros ?]
  | |- quiet (PRet _) => eexists; reflexivity
  | |- no_write (pdo _ _) => apply no_do; [reflexivity|intros ?]
  | |- no_write (plift _ _) => apply no_lift; intros ?
  | |- no_write (PRet _) => exact I
  | |- _ (if ?b then _ else _) => destruct b
  | |- _ (match ?x with _ => _ end) => destruct x eqn:?
  | |- _ (let _ := _ in _) => cbv zeta
  end.
Lemma no_v3 : forall C a ex r m, no_write (process_prekey_v3 C a ex r m).
Proof. intros. unfold process_prekey_v3. wonce. Qed.
Lemma no_prekey : forall C a ex r m, no_write (process_prekey C a ex r m).
Proof. intros. unfold process_prekey. wonce. apply no_seq; [apply no_v3|]. intros [r' i]. wonce. Qed.
Lemma add_first : forall s r d, gr_add s [] = Ok r -> exists m, dist_of_state d r = Ok m.
Proof.
  intros s r d E. unfold gr_add in E. destruct (gs_public s) as [k|e|] eqn:P; cbn [bind gr_remove gr_remove_chain filter List.length Nat.leb app max_gstates] in E; [|discriminate..].
  injection E as <-. unfold dist_of_state. cbn [gr_state bind]. rewrite P. eexists. reflexivity.
Qed.
Lemma one_calls : forall C c, let '@Thread A p := start C c in one_write p.
Proof.
  intros C [a rnd b|a pt|a rnd m|a m|a d sr rnd|a d rnd pt|a m]; cbn [start].
  - unfold process_bundle. wonce.
  - unfold encrypt_message. wonce.
  - destruct m; cbn [decrypt_message]; try exact I; [unfold decrypt_signal; wonce|].
    unfold decrypt_prekey. wonce; (apply one_seq; [apply no_prekey|]); intros [r' i]; wonce.
  - unfold process_dist. wonce.
  - unfold new_sender_dist. wonce. match goal with E : gr_add _ _ = Ok _ |- _ => destruct (add_first _ _ d E) as [m ->] end. cbn [plift]. wonce.
  - unfold gencrypt. wonce.
  - unfold gdecrypt. wonce.
Qed.

Lemma same_refl : forall w, same_records w w.
Proof. intro w. split; reflexivity. Qed.
Lemma same_trans : forall w1 w2 w3, same_records w1 w2 -> same_records w2 w3 -> same_records w1 w3.
Proof. intros w1 w2 w3 [A1 A2] [B1 B2]. split; intros; [rewrite B1; apply A1|rewrite B2; apply A2]. Qed.
Lemma exec_shared : forall X (o : op X) w, w_shared (snd (exec o w)) = w_shared w.
Proof. intros X o w. destruct o; cbn [exec snd]; try reflexivity; destruct (w_shared w) eqn:E; cbn; auto. Qed.
Lemma exec_silent : forall X (o : op X) w, w_shared w = false -> writes o = false -> same_records w (snd (exec o w)).
Proof. intros X o w Sh W. destruct o; try discriminate W; cbn [exec snd]; rewrite ?Sh; split; reflexivity. Qed.

Lemma un_refl : forall w, untouched w w.
Proof. intro w. split; [apply same_refl|]. split; reflexivity. Qed.
Lemma un_trans : forall w1 w2 w3, untouched w1 w2 -> untouched w2 w3 -> untouched w1 w3.
Proof.
  intros w1 w2 w3 (A1 & A2 & A3) (B1 & B2 & B3). split; [eapply same_trans; eauto|].
  split; intro id; [rewrite B2; apply A2|rewrite B3; apply A3].
Qed.
Lemma exec_un : forall X (o : op X) w, w_shared w = false -> silent o = true -> untouched w (snd (exec o w)).
Proof. intros X o w Sh W. destruct o; try discriminate W; cbn [exec snd]; rewrite ?Sh; repeat split; reflexivity. Qed.

Lemma quiet_run : forall {A} (p : prog A), quiet p -> forall w, w_shared w = false ->
  is_ok (fst (run0 p w)) /\ same_records w (snd (run0 p w)) /\ forall m, same_records w (crash m p [] w).
Proof.
  intros A p. induction p as [r|X o k IH]; intros P w Sh.
  - split; [exact P|]. split; [apply same_refl|]. intro m. rewrite crash_ret. apply same_refl.
  - destruct P as [W P]. pose proof (exec_silent X o w Sh W) as E.
    assert (Sh' : w_shared (snd (exec o w)) = false) by (rewrite exec_shared; exact Sh).
    destruct (IH (Ok (fst (exec o w))) (P _) (snd (exec o w)) Sh') as (A1 & A2 & A3).
    unfold run0 in *. cbn [run hd_fault tl]. rewrite exec_f_ok. split; [exact A1|]. split; [eapply same_trans; eauto|].
    intros [|m]; [apply same_refl|]. cbn [crash pstep hd_fault tl]. rewrite exec_f_ok. eapply same_trans; eauto.
Qed.
Lemma same_sym : forall w1 w2, same_records w1 w2 -> same_records w2 w1.
Proof. intros w1 w2 [A B]. split; intros; symmetry; auto. Qed.
Lemma one_write_run : forall {A} (p : prog A), one_write p -> forall w, w_shared w = false -> forall m,
  untouched w (crash m p [] w) \/ is_ok (fst (run0 p w)) /\ same_records (snd (run0 p w)) (crash m p [] w).
Proof.
  intros A p. induction p as [r|X o k IH]; intros P w Sh m.
  - left. rewrite crash_ret. apply un_refl.
  - destruct m as [|m]; [left; apply un_refl|]. cbn [crash pstep hd_fault tl]. unfold run0. cbn [run hd_fault tl]. rewrite exec_f_ok.
    specialize (P (fst (exec o w))).
    assert (Sh' : w_shared (snd (exec o w)) = false) by (rewrite exec_shared; exact Sh). destruct (writes o) eqn:W.
    + right. destruct (quiet_run _ P _ Sh') as (A1 & A2 & A3). split; [exact A1|]. eapply same_trans; [apply same_sym; exact A2|apply A3].
    + destruct P as [Si P]. destruct (IH (Ok (fst (exec o w))) P _ Sh' m) as [E|E]; [left|right; exact E].
      eapply un_trans; [exact (exec_un X o w Sh Si)|exact E].
Qed.

(** Any call, any failures, any crash point. *)
Lemma call_atomic : forall C c fs w, w_shared w = false ->
  let '@Thread A p := start C c in
  (forall n, untouched w (crash n p fs w) \/ is_ok (fst (run0 p w)) /\ same_records (snd (run0 p w)) (crash n p fs w)) /\
  (untouched w (snd (run p fs w)) \/ is_ok (fst (run0 p w)) /\ same_records (snd (run0 p w)) (snd (run p fs w))).
Proof.
  intros C c fs w Sh. pose proof (strict_calls C c) as S0. pose proof (one_calls C c) as O. destruct (start C c) as [A p]. split.
  - intro n. destruct (crash_reduces p S0 fs w n) as [m ->]. apply one_write_run; assumption.
  - destruct (run_reduces p S0 fs w) as [m ->]. apply one_write_run; assumption.
Qed.
(** Failures are reported. *)
Lemma met_failure : forall {A} (p : prog A), strict p -> forall fs w f, In f (met p fs w) -> f <> FNone ->
  fst (run p fs w) = Err EStore.
Proof.
  intros A p. induction p as [r|X o k IH]; intros P fs w f I0 N; [destruct I0|].
  destruct P as [Er P]. cbn [run]. cbn [met In] in I0. unfold exec_f in *. destruct (fallible o) eqn:F.
  - destruct (hd_fault fs) eqn:Q.
    + destruct (exec o w) as [x w']. destruct I0 as [I0|I0]; [congruence|]. eapply IH; eauto.
    + rewrite Er. reflexivity.
    + rewrite Er. reflexivity.
  - destruct (exec o w) as [x w']. destruct I0 as [I0|I0]; [congruence|]. eapply IH; eauto.
Qed.
Lemma call_reports : forall C c fs w f, let '@Thread A p := start C c in In f (met p fs w) -> f <> FNone ->
  fst (run p fs w) = Err EStore.
Proof. intros C c fs w f. pose proof (strict_calls C c) as S0. destruct (start C c) as [A p]. apply met_failure. exact S0. Qed.
