(** Receiver chains and saved message keys. *)
From Verif Require Import M_Base M_Crypto M_Aes M_Curve M_Proto M_Message M_Ratchet M_State M_Store M_Session
  S_Crypto S_Message S_State S_Shape S_Ratchet S_Session
  P_Base P_Proto P_Curve P_State P_Shape P_Ratchet P_Message.
From Coq Require Import ZifyBool ZifyNat ZifyN.

(** *** Lists of chains *)
Lemma find_chain_upd : forall key f l, (forall c, pc_ratchet (f c) = pc_ratchet c) ->
  find_chain key (upd_chain key f l) = option_map f (find_chain key l).
Proof.
  intros key f l P. induction l as [|c l IH]; [reflexivity|]. cbn [upd_chain find_chain].
  destruct (bytes_eqb (pc_ratchet c) key) eqn:E; cbn [find_chain].
  - rewrite P, E. reflexivity.
  - rewrite E. exact IH.
Qed.
Lemma find_chain_upd_neq : forall key key' f l, (forall c, pc_ratchet (f c) = pc_ratchet c) -> key <> key' ->
  find_chain key' (upd_chain key f l) = find_chain key' l.
Proof.
  intros key key' f l P N. induction l as [|c l IH]; [reflexivity|]. cbn [upd_chain find_chain].
  destruct (bytes_eqb (pc_ratchet c) key) eqn:E; cbn [find_chain].
  - rewrite P. apply bytes_eqb_eq in E. rewrite E.
    destruct (bytes_eqb key key') eqn:F; auto. apply bytes_eqb_eq in F. contradiction.
  - rewrite IH. reflexivity.
Qed.
Lemma upd_chain_length : forall key f l, List.length (upd_chain key f l) = List.length l.
Proof.
  intros. induction l as [|c l IH]; [reflexivity|]. cbn [upd_chain].
  destruct (bytes_eqb _ _); cbn [List.length]; auto.
Qed.
Lemma upd_chain_forall : forall (P : pchain -> Prop) key f l, (forall c, P c -> P (f c)) ->
  Forall P l -> Forall P (upd_chain key f l).
Proof.
  intros P key f l H F. induction F as [|c l Hc F IH]; [constructor|]. cbn [upd_chain].
  destruct (bytes_eqb _ _); constructor; auto.
Qed.
Lemma upd_chain_comp : forall key f g l, (forall c, pc_ratchet (g c) = pc_ratchet c) ->
  upd_chain key f (upd_chain key g l) = upd_chain key (fun c => f (g c)) l.
Proof.
  intros key f g l P. induction l as [|c l IH]; [reflexivity|]. cbn [upd_chain].
  destruct (bytes_eqb (pc_ratchet c) key) eqn:E; cbn [upd_chain].
  - rewrite P, E. reflexivity.
  - rewrite E, IH. reflexivity.
Qed.
Lemma upd_chain_ext : forall key f g l, (forall c, f c = g c) -> upd_chain key f l = upd_chain key g l.
Proof.
  intros key f g l H. induction l as [|c l IH]; [reflexivity|]. cbn [upd_chain]. rewrite H, IH. reflexivity.
Qed.
Lemma upd_chain_ext_in : forall key f g l, (forall c, In c l -> f c = g c) -> upd_chain key f l = upd_chain key g l.
Proof.
  intros key f g l H. induction l as [|c l IH]; [reflexivity|]. cbn [upd_chain].
  rewrite H by (left; auto). rewrite IH; auto. intros; apply H; right; auto.
Qed.
Lemma upd_chain_id : forall key f l, (forall c, f c = c) -> upd_chain key f l = l.
Proof.
  intros key f l H. induction l as [|c l IH]; [reflexivity|]. cbn [upd_chain]. rewrite H, IH. destruct (bytes_eqb _ _); reflexivity.
Qed.
Lemma upd_chain_none : forall key f l, find_chain key l = None -> upd_chain key f l = l.
Proof.
  intros key f l. induction l as [|c l IH]; [reflexivity|]. cbn [upd_chain find_chain].
  destruct (bytes_eqb _ _); [discriminate|]. intro H. rewrite IH; auto.
Qed.
Lemma find_chain_some : forall key l c, find_chain key l = Some c -> In c l /\ pc_ratchet c = key.
Proof.
  intros key l c. induction l as [|d l IH]; [discriminate|]. cbn [find_chain].
  destruct (bytes_eqb (pc_ratchet d) key) eqn:E.
  - intro F. injection F as <-. apply bytes_eqb_eq in E. split; [left|]; auto.
  - intro F. destruct (IH F). split; [right|]; auto.
Qed.
Lemma find_chain_none : forall key l, find_chain key l = None <-> ~ In key (map pc_ratchet l).
Proof.
  intros key l. induction l as [|d l IH]; cbn [find_chain map In]; [tauto|].
  destruct (bytes_eqb (pc_ratchet d) key) eqn:E.
  - apply bytes_eqb_eq in E. split; [discriminate|]. intro H. exfalso. apply H. left; auto.
  - apply bytes_eqb_neq in E. rewrite IH. tauto.
Qed.
Lemma find_chain_app : forall key a b, find_chain key (a ++ b) =
  match find_chain key a with Some c => Some c | None => find_chain key b end.
Proof.
  intros key a b. induction a as [|c a IH]; [reflexivity|]. cbn [app find_chain].
  destruct (bytes_eqb _ _); auto.
Qed.
Lemma upd_chain_ratchets : forall key f l, (forall c, pc_ratchet (f c) = pc_ratchet c) ->
  map pc_ratchet (upd_chain key f l) = map pc_ratchet l.
Proof.
  intros key f l H. induction l as [|c l IH]; [reflexivity|]. cbn [upd_chain].
  destruct (bytes_eqb _ _); cbn [map]; congruence.
Qed.

(** *** Bounded lists *)
Definition keep_last {A} (n : nat) (l : list A) : list A := skipn (List.length l - n) l.

Lemma keep_last_all : forall {A} n (l : list A), List.length l <= n -> keep_last n l = l.
Proof. intros A n l H. unfold keep_last. replace (List.length l - n) with 0 by lia. reflexivity. Qed.
Lemma keep_last_length : forall {A} n (l : list A), List.length (keep_last n l) = Nat.min n (List.length l).
Proof. intros. unfold keep_last. rewrite skipn_length. lia. Qed.
Lemma trim_front_keep : forall {A} n (l : list A), List.length l <= S n -> trim_front n l = keep_last n l.
Proof.
  intros A n l H. unfold trim_front, keep_last. destruct (Nat.ltb_spec n (List.length l)).
  - replace (List.length l - n) with 1 by lia. reflexivity.
  - replace (List.length l - n) with 0 by lia. reflexivity.
Qed.
Lemma keep_last_app : forall {A} n (a b : list A), keep_last n (keep_last n a ++ b) = keep_last n (a ++ b).
Proof.
  intros A n a b. unfold keep_last. rewrite !app_length, skipn_length.
  destruct (Nat.le_gt_cases (List.length a) n) as [H|H].
  - replace (List.length a - n) with 0 by lia. cbn [skipn]. f_equal. lia.
  - rewrite !skipn_app. rewrite !skipn_length.
    rewrite <- skipn_plus. f_equal; f_equal; lia.
Qed.
Lemma keep_last_in : forall {A} n (l : list A) x, In x (keep_last n l) -> In x l.
Proof. intros A n l x H. unfold keep_last in H. rewrite <- (firstn_skipn (List.length l - n) l). apply in_or_app. auto. Qed.
Lemma trim_front_in : forall {A} n (l : list A) x, In x (trim_front n l) -> In x l.
Proof.
  intros A n l x. unfold trim_front. destruct (Nat.ltb n (List.length l)); auto.
  destruct l; [auto|]. cbn [skipn]. intro; right; auto.
Qed.
Lemma trim_front_length : forall {A} n (l : list A), List.length l <= S n -> List.length (trim_front n l) <= n.
Proof. intros A n l H. rewrite trim_front_keep by exact H. rewrite keep_last_length. lia. Qed.
Lemma trim_front_forall : forall {A} (P : A -> Prop) n l, Forall P l -> Forall P (trim_front n l).
Proof. intros A P n l F. rewrite Forall_forall in *. intros x H. apply F. eapply trim_front_in; eauto. Qed.

(** *** Skipped keys *)
Definition saved (C : Crypto) (ck : chainkey) : pmsgkey :=
  let m := ck_message_keys C ck in mkPMsgKey (mk_counter m) (mk_cipher m) (mk_mac m) (mk_iv m).

Fixpoint skip_list (C : Crypto) (n : nat) (ck : chainkey) (l : list pmsgkey) : list pmsgkey :=
  match n with
  | O => l
  | S m => skip_list C m (ck_next C ck) (trim_front max_message_keys (l ++ [saved C ck]))
  end.

Lemma state_eta : forall s, with_receivers s (ss_receivers s) = s.
Proof. destruct s; reflexivity. Qed.
Lemma chain_eta : forall c, with_msgkeys c (pc_msgkeys c) = c.
Proof. destruct c; reflexivity. Qed.

Lemma st_receiver_upd : forall s eph f, (forall c, pc_ratchet (f c) = pc_ratchet c) ->
  st_receiver_chain (with_receivers s (upd_chain (pub_bytes eph) f (ss_receivers s))) eph =
  option_map f (st_receiver_chain s eph).
Proof. intros. unfold st_receiver_chain. cbn [ss_receivers with_receivers]. apply find_chain_upd; auto. Qed.

Lemma skip_keys_exact : forall C eph n s ck c, st_receiver_chain s eph = Some c ->
  skip_keys C n s eph ck =
  Ok (with_receivers s (upd_chain (pub_bytes eph)
        (fun c => with_msgkeys c (skip_list C n ck (pc_msgkeys c))) (ss_receivers s)),
      ck_iter C n ck).
Proof.
  intros C eph n. induction n as [|n IH]; intros s ck c F.
  - cbn [skip_keys skip_list]. rewrite upd_chain_id by apply chain_eta. rewrite state_eta. reflexivity.
  - cbn [skip_keys skip_list]. unfold st_set_message_keys. rewrite F. cbn [bind].
    set (g := fun c : pchain => with_msgkeys c (trim_front max_message_keys
      (pc_msgkeys c ++ [mkPMsgKey (mk_counter (ck_message_keys C ck)) (mk_cipher (ck_message_keys C ck))
         (mk_mac (ck_message_keys C ck)) (mk_iv (ck_message_keys C ck))]))).
    rewrite (IH _ _ (g c)).
    + cbn [ss_receivers with_receivers]. f_equal. f_equal.
      * rewrite upd_chain_comp by reflexivity. unfold with_receivers. cbn. f_equal.
      * unfold ck_iter. rewrite (ck_iter_swap C n ck : Nat.iter n (ck_next C) (ck_next C ck) = _). reflexivity.
    + rewrite st_receiver_upd by reflexivity. rewrite F. reflexivity.
Qed.

Lemma skip_list_keep : forall C n ck l, List.length l <= max_message_keys ->
  skip_list C n ck l = keep_last max_message_keys (l ++ map (fun i => saved C (ck_iter C i ck)) (seq 0 n)).
Proof.
  intros C n. induction n as [|n IH]; intros ck l H.
  - cbn [skip_list seq map]. rewrite app_nil_r, keep_last_all; auto.
  - cbn [skip_list]. rewrite IH by (apply trim_front_length; rewrite app_length; cbn; lia).
    rewrite trim_front_keep by (rewrite app_length; cbn [List.length]; lia).
    rewrite keep_last_app. f_equal. rewrite <- app_assoc. f_equal.
    cbn [seq map app]. f_equal. rewrite <- seq_shift, map_map. apply map_ext. intro i.
    f_equal. unfold ck_iter. rewrite (ck_iter_swap C i ck : Nat.iter i (ck_next C) (ck_next C ck) = _). reflexivity.
Qed.

Lemma skip_list_length : forall C n ck l, List.length l <= max_message_keys ->
  List.length (skip_list C n ck l) <= max_message_keys.
Proof. intros. rewrite skip_list_keep by auto. rewrite keep_last_length. lia. Qed.

Lemma saved_wf : forall C ck, CryptoOk C -> go_u32 (ck_index ck) -> wf_msgkey (saved C ck).
Proof.
  intros C ck H G. destruct (derive_message_keys_at C ck H) as (_ & L1 & L2 & L3 & I).
  unfold saved, wf_msgkey. cbn [pmk_index pmk_cipher pmk_mac pmk_iv]. rewrite I. auto.
Qed.

Lemma ck_iter_u32 : forall C n ck, go_u32 (ck_index ck) -> go_u32 (ck_index (ck_iter C n ck)).
Proof. intros. rewrite ck_iter_index by auto. apply u32_lt. Qed.

Lemma skip_list_forall : forall C n ck l, CryptoOk C -> go_u32 (ck_index ck) ->
  Forall wf_msgkey l -> Forall wf_msgkey (skip_list C n ck l).
Proof.
  intros C n. induction n as [|n IH]; intros ck l H G F; [auto|]. cbn [skip_list].
  apply IH; auto.
  - apply (ck_iter_u32 C 1). auto.
  - apply trim_front_forall. apply Forall_app. split; auto. constructor; auto using saved_wf.
Qed.
