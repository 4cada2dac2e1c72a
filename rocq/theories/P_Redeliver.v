(** Delivering again a message whose decryption was cut off (C64). *)
From Verif Require Import M_Base M_Crypto M_Aes M_Curve M_Proto M_Message M_Ratchet M_State M_Store M_Session M_Group
  S_Crypto S_Message S_State S_Shape S_Ratchet S_Session S_Aes S_Api S_Send S_Group S_Curve S_X3dh S_Receive S_Conv S_History S_Atomic S_Spent
  P_Base P_Prog P_Api P_DecApi P_History P_Atomic P_CrashConv P_Spent.
From Coq Require Import ZifyBool ZifyNat ZifyN.
Local Open Scope nat_scope.

(** A successful run of the program can fail in its last store call, after it took effect. *)
Definition late {A} (p : prog A) : Prop := forall w x w', run0 p w = (Ok x, w') -> exists fs, run p fs w = (Err EStore, w').
Lemma late_no : forall {A} (r : res A), (forall x, r <> Ok x) -> late (PRet r).
Proof. intros A r N0 w x w' E. injection E as E _. destruct (N0 _ E). Qed.
Lemma exec_none : forall X (o : op X) w, exec_f o FNone w = (Ok (fst (exec o w)), snd (exec o w)).
Proof. intros. unfold exec_f. destruct (fallible o), (exec o w); reflexivity. Qed.
Lemma late_do : forall {A X} (o : op X) (k : X -> prog A), (forall x, late (k x)) -> late (pdo o k).
Proof.
  intros A X o k L w x w' E. unfold run0, pdo in E. cbn [run hd_fault tl] in E. rewrite exec_none in E.
  destruct (L (fst (exec o w)) _ _ _ E) as (fs & F). exists (FNone :: fs). unfold pdo. cbn [run hd_fault tl]. rewrite exec_none. exact F.
Qed.
Lemma late_last : forall {A X} (o : op X) (k : X -> prog A) (y : res A), fallible o = true -> (forall x, k x = PRet y) -> late (pdo o k).
Proof.
  intros A X o k y Fo K w x w' E. unfold run0, pdo in E. cbn [run hd_fault tl] in E. rewrite exec_none, K in E. injection E as _ <-.
  exists [FAfter]. unfold pdo. cbn [run hd_fault tl]. unfold exec_f. rewrite Fo. reflexivity.
Qed.
Lemma late_bind : forall {A B} (p : prog A) (f : res A -> prog B), (forall r, late (f r)) -> late (pbind p f).
Proof.
  intros A B p f L. induction p as [r|X o k IH]; [apply L|]. intros w x w' E. unfold run0 in E. cbn [pbind run hd_fault tl] in E. rewrite exec_none in E.
  destruct (IH _ _ _ _ E) as (fs & F). exists (FNone :: fs). cbn [pbind run hd_fault tl]. rewrite exec_none. exact F.
Qed.
Lemma late_lift : forall {A X} (r : res X) (k : X -> prog A), (forall x, late (k x)) -> late (plift r k).
Proof. intros A X [x|e|] k L; cbn [plift]; [apply L|apply late_no; discriminate..]. Qed.
Lemma decrypt_late : forall C a rnd c, late (decrypt_message C a rnd c).
Proof.
  intros C a rnd c. destruct c as [m|pm|m|m]; cbn [decrypt_message]; try (apply late_no; discriminate).
  - assert (Lr : forall pt r, late (signal_rest a pt r)).
    { intros pt r. unfold signal_rest. destruct (rc_current r) as [s|]; [|apply late_no; discriminate].
      destruct (st_remote_identity s) as [[rid|]|e|]; try (apply late_no; discriminate).
      apply late_do. intros [|]; cbn [negb]; [|apply late_no; discriminate]. apply late_do. intros _.
      eapply late_last; [reflexivity|]. intros; reflexivity. }
    unfold decrypt_signal. apply late_do. intros [r|]; [|apply late_no; discriminate].
    destruct (decrypt_record C rnd r m) as [[pt r']|e|]; [|apply Lr|apply late_no; discriminate].
    apply late_do. intros _. apply Lr.
  - unfold decrypt_prekey. apply late_do. intros lr. unfold pseq. apply late_bind. intro x. apply late_lift. intros [r1 pkid].
    apply late_lift. intros [pt r2].
    assert (Lf : late (pdo (OStoreSession a r2) (fun _ => match pkid with
      | Some id => pdo (ODeletePreKey id) (fun _ => PRet (Ok pt)) | None => PRet (Ok pt) end))).
    { destruct pkid as [id|]; [apply late_do; intros _|]; (eapply late_last; [reflexivity|]; intros; reflexivity). }
    cbv zeta. destruct lr; [apply late_do; intros _|]; exact Lf.
Qed.

Lemma last_in : forall {A} n (l : list A) x, In x (last_n (S n) (l ++ [x])).
Proof.
  intros A n l x. unfold last_n. rewrite app_length. cbn [List.length].
  rewrite skipn_app. apply in_or_app. right. replace (List.length l + 1 - S n - List.length l) with 0 by lia. left. reflexivity.
Qed.
Lemma ahead_receivable : forall p k n, ahead p k n -> receivable p k n.
Proof. intros p k n [(v & Iv & Ev & L)|[E L]]; [exact (rec_ahead p k n v Iv Ev L)|exact (rec_new p k n E L)]. Qed.
Lemma ahead_again : forall p k n, Forall (fun v => rv_epoch v < p_epoch p) (p_views p) -> ahead p k n ->
  receivable (party_after p k n) k n /\ k <> S (p_epoch (party_after p k n)).
Proof.
  intros p k n Vw A. unfold party_after. destruct (Nat.eqb_spec k (S (p_epoch p))) as [Q|Q]; cbn [p_epoch].
  - split; [|lia]. eapply rec_ahead; [cbn [p_views]; apply last_in|reflexivity|]. cbn [rv_idx]. lia.
  - split; [|exact Q]. destruct A as [(v & Iv & Ev & L)|[E L]]; [|contradiction].
    apply (rec_ahead _ k n (view_after n v)); cbn [p_views].
    + apply in_map_iff. exists v. rewrite Ev, Nat.eqb_refl. auto.
    + unfold view_after. destruct (n <? rv_idx v)%N; exact Ev.
    + unfold view_after. destruct (N.ltb_spec n (rv_idx v)); cbn [rv_idx]; lia.
Qed.
Lemma saved_spent : forall p k n, p_epoch p <> k -> k <> S (p_epoch p) -> kept_back p k n -> gone (party_after p k n) k n.
Proof.
  intros p k n _ Q (v & Iv & Ev & L & Is). unfold party_after. destruct (Nat.eqb_spec k (S (p_epoch p))) as [Z|_]; [contradiction|].
  exists (view_after n v). unfold view_after. destruct (N.ltb_spec n (rv_idx v)); [|lia]. cbn [p_views rv_epoch rv_idx rv_saved].
  split; [|split; [exact Ev|split; [exact L|]]].
  - apply in_map_iff. exists v. rewrite Ev, Nat.eqb_refl. unfold view_after. destruct (N.ltb_spec n (rv_idx v)); [auto|lia].
  - intro J. apply filter_In in J. destruct J as [_ J]. rewrite N.eqb_refl in J. discriminate.
Qed.

Section Redeliver.
Variable C : Crypto.
Hypothesis H : CryptoOk C.
Variable b : bundle.
Variable at_ : bool -> addr.

Lemma views_behind : forall base dev par keys notes, history C at_ b base dev par keys notes ->
  forall side, Forall (fun v => rv_epoch v < p_epoch (par side)) (p_views (par side)).
Proof using H.
  intros base dev par keys notes Hy side. destruct (history_in_step C H b at_ _ _ _ _ _ Hy) as (k & ks & St).
  destruct St as (_ & _ & _ & _ & _ & _ & _ & _ & _ & _ & Ss & Nb & _).
  assert (D : side = true \/ p_epoch (par false) <> 0 \/ side = false /\ p_epoch (par false) = 0) by (destruct side; [auto|destruct (Nat.eq_dec (p_epoch (par false)) 0); auto]).
  destruct D as [D|[D|[-> D]]]; [| |destruct (Nb D) as [-> _]; constructor].
  all: destruct (Ss side) as (r & s & _ & _ & P & _); [auto|]; apply P.
Qed.

Theorem redelivered : forall base dev par keys notes side ep n pt c rnd w' rnd2,
  history C at_ b base dev par keys notes -> w_shared (dev side) = false ->
  In (mkNote (negb side) ep n pt c) notes -> ahead (par side) ep n -> fresh C keys (par side) ep rnd ->
  leaves (decrypt_message C (at_ side) rnd c) (dev side) w' -> fresh C keys (par side) ep rnd2 ->
  w_policy w' (at_ side) (w_ident w' (at_ side)) (kp_pub (w_pair (dev (negb side)))) Receiving = true ->
  exists w'', run0 (decrypt_message C (at_ side) rnd2 c) w' = (Ok pt, w'').
Proof using H.
  intros base dev par keys notes side ep n pt c rnd w' rnd2 Hy Sh I0 Ah Fr Lv Fr2 T.
  destruct (receive_cut C H b at_ _ _ _ _ _ _ _ _ _ _ _ _ Hy Sh I0 (ahead_receivable _ _ _ Ah) Fr Lv) as (dev' & Ed & Hc).
  assert (E1 : dev' side = w') by (rewrite Ed; apply upd_same).
  assert (E2 : dev' (negb side) = dev (negb side)) by (rewrite Ed; unfold upd; destruct side; reflexivity).
  destruct Hc as [Hc|Hc].
  - pose proof (delivered C H b at_ _ _ _ _ _ side ep n pt c rnd2 Hc I0 (ahead_receivable _ _ _ Ah) Fr2) as D. rewrite E1, E2 in D. exact (D T).
  - destruct (ahead_again _ _ _ (views_behind _ _ _ _ _ Hy side) Ah) as [R N0].
    pose proof (delivered C H b at_ _ _ _ _ _ side ep n pt c rnd2 Hc I0) as D. rewrite E1, E2, upd_same in D.
    apply D; [exact R| |exact T]. intro Q. contradiction.
Qed.

(** A message whose key was saved is lost if the call is cut off after the store. *)
Theorem saved_lost : forall base dev par keys notes side ep n pt c rnd,
  history C at_ b base dev par keys notes ->
  In (mkNote (negb side) ep n pt c) notes -> kept_back (par side) ep n ->
  w_policy (dev side) (at_ side) (w_ident (dev side) (at_ side)) (kp_pub (w_pair (dev (negb side)))) Receiving = true ->
  exists fs w', run (decrypt_message C (at_ side) rnd c) fs (dev side) = (Err EStore, w') /\
    forall rnd2 fs2, fst (run (decrypt_message C (at_ side) rnd2 c) fs2 w') = Ok [] \/
      exists e, fst (run (decrypt_message C (at_ side) rnd2 c) fs2 w') = Err e.
Proof using H.
  intros base dev par keys notes side ep n pt c rnd Hy I0 Kb T.
  assert (Ne : p_epoch (par side) <> ep /\ ep <> S (p_epoch (par side))).
  { destruct Kb as (v & Iv & Ev & _). pose proof (views_behind _ _ _ _ _ Hy side) as Vw. rewrite Forall_forall in Vw. specialize (Vw v Iv). lia. }
  assert (Rv : receivable (par side) ep n) by (destruct Kb as (v & Iv & Ev & L & Is); exact (rec_saved _ _ _ v Iv Ev L Is)).
  assert (Fr : fresh C keys (par side) ep rnd) by (intro Q; destruct (proj2 Ne Q)).
  destruct (delivered C H b at_ _ _ _ _ _ side ep n pt c rnd Hy I0 Rv Fr T) as (w1 & E).
  destruct (decrypt_late C (at_ side) rnd c _ _ _ E) as (fs & F). exists fs, w1. split; [exact F|].
  intros rnd2 fs2. pose proof (h_receive C at_ b base dev par keys notes side ep n pt c rnd [] pt w1 Hy I0 Rv Fr E) as Hy'.
  pose proof (spent_refused C H b at_ _ _ _ _ _ side ep n pt c rnd2 Hy' I0) as D. rewrite !upd_same in D.
  destruct D as (D & _); [apply saved_spent; [apply Ne|apply Ne|exact Kb]|]. apply D.
Qed.
End Redeliver.
