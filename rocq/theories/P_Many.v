(** Several sessions at the same time: the invariant (C85). *)
From Verif Require Import M_Base M_Crypto M_Aes M_Curve M_Proto M_Message M_Ratchet M_State M_Store M_Session M_Group
  S_Crypto S_Message S_State S_Shape S_Ratchet S_Session S_Aes S_Api S_Send S_Group S_Curve S_X3dh S_Receive S_Conv S_History S_Secrecy S_Many
  P_Base P_Proto P_Curve P_State P_Shape P_Ratchet P_Message P_Aes P_Chain P_Decrypt P_Receive P_Encrypt P_Record P_Prog P_Api
  P_Init P_Send P_Conv P_X3dh P_Conv2 P_Bundle P_DecApi P_DecTop P_DecMore P_Replay P_Trust P_History P_Archive P_ManyRec P_ManyFail P_ManyApi P_ManyLink.
From Coq Require Import ZifyBool ZifyNat ZifyN Permutation.
Local Open Scope nat_scope.

Lemma map_inj_in : forall {A B} (f : A -> B) l x y, NoDup (map f l) -> In x l -> In y l -> f x = f y -> x = y.
Proof.
  intros A B f l x y. induction l as [|z l IH]; intros N Jx Jy E; [destruct Jx|]. cbn [map] in N. inversion N as [|? ? N1 N2]; subst.
  destruct Jx as [->|Jx], Jy as [->|Jy]; [reflexivity| | |auto].
  - destruct N1. rewrite E. apply in_map. exact Jy.
  - destruct N1. rewrite <- E. apply in_map. exact Jx.
Qed.
Lemma eqb_twice : forall x f, Bool.eqb (Bool.eqb x f) f = x.
Proof. intros [] []; reflexivity. Qed.
Lemma upd_same : forall {A} (f : bool -> A) x a, upd f x a x = a.
Proof. intros. unfold upd. rewrite Bool.eqb_reflx. reflexivity. Qed.
Lemma upd_other : forall {A} (f : bool -> A) x y a, y <> x -> upd f x a y = f y.
Proof. intros A f x y a N. unfold upd. destruct (Bool.eqb y x) eqn:E; [apply Bool.eqb_prop in E; contradiction|reflexivity]. Qed.

Section Many.
Variable C : Crypto.
Hypothesis H : CryptoOk C.
Variable at_ : bool -> addr.

Definition sess_list (w : world) (a : addr) : list state := sessions_of (loaded (w_sess w a)).
Definition at_l (l : link) : bool -> addr := fun part => at_ (player l part).
Lemma at_role : forall l x, at_l l (role l x) = at_ x.
Proof. intros l x. unfold at_l, player, role. rewrite eqb_twice. reflexivity. Qed.
Definition stands (dev : bool -> world) (l : link) (v : bool -> world) (x : bool) : Prop :=
  w_pair (v (role l x)) = w_pair (dev x) /\
  (has_link l x -> exists s, current_session (v (role l x)) (at_ x) = Some s /\ In s (sess_list (dev x) (at_ x))) /\
  (~ has_link l x -> unused_base (dev x) (at_ x) (ln_base l) /\ prekeys_kept (v (role l x)) (dev x) (ln_bundle l)).
(** What is known of the execution of each session besides that it is a history: anything that
    lasts. *)
Record ghost := mkGhost { gh :> link -> (bool -> world) -> Prop;
  gh_hist : forall l v, gh l v -> history C (at_l l) (ln_bundle l) (ln_base l) v (ln_par l) (ln_keys l) (ln_notes l);
  gh_later : forall l v l' v', gh l v -> ln_from l' = ln_from l -> ln_bundle l' = ln_bundle l -> ln_base l' = ln_base l ->
    later C (at_l l) (ln_bundle l) (ln_base l) v (ln_par l) (ln_keys l) (ln_notes l) v' (ln_par l') (ln_keys l') (ln_notes l') -> gh l' v' }.
Variable G : ghost.
Definition linked (dev : bool -> world) (l : link) : Prop :=
  exists v, G l v /\ forall x, stands dev l v x.
Definition inv (dev : bool -> world) (ls : list link) : Prop :=
  (forall x, wf_device (dev x)) /\ NoDup (bases ls) /\ List.length ls <= 41 /\ (forall l, In l ls -> linked dev l) /\
  (forall x, NoDup (map ss_alice_base (sess_list (dev x) (at_ x)))) /\
  (forall x s, In s (sess_list (dev x) (at_ x)) -> exists l, In l ls /\ has_link l x /\ ss_alice_base s = Byte.x05 :: ln_base l) /\
  (forall l l' e, In l ls -> In l' ls -> ln_base l <> ln_base l' -> In e (tl (ln_keys l)) -> ~ In e (ln_keys l')) /\
  (forall l l' id, In l ls -> In l' ls -> ln_base l <> ln_base l' -> ln_from l = ln_from l' ->
     bd_prekey_id (ln_bundle l) = Some id -> bd_prekey_id (ln_bundle l') <> Some id).

Lemma has_dec : forall l x, has_link l x \/ ~ has_link l x.
Proof. intros l x. unfold has_link. destruct (role l x); [left; left; reflexivity|]. destruct (Nat.eq_dec (p_epoch (ln_par l false)) 0) as [Z|Z]; [right; intros [X|X]; [discriminate|contradiction]|left; right; exact Z]. Qed.
Lemma sess_in : forall w a s, wf_device w -> (In s (sess_list w a) <-> exists r, w_sess w a = Some r /\ state_in s r).
Proof.
  intros w a s [W _]. unfold sess_list. destruct (w_sess w a) as [r|] eqn:E; cbn [loaded].
  - rewrite sessions_in by (eapply (proj1 W); exact E). split; [eauto|]. intros (r' & X & J). injection X as <-. exact J.
  - split; [intros []|]. intros (r' & X & _). discriminate.
Qed.
Lemma keys_in_all : forall ls l e, In l ls -> In e (ln_keys l) -> In e (all_keys ls).
Proof. intros ls l e J K. unfold all_keys. apply in_flat_map. eauto. Qed.
Lemma tl_in : forall {A} (l : list A) x, In x (tl l) -> In x l.
Proof. intros A [|y l] x J; [exact J|right; exact J]. Qed.
Lemma bases_in : forall ls l, In l ls -> In (ln_base l) (bases ls).
Proof. intros. apply in_map. assumption. Qed.
Lemma middle : forall l1 (l : link) l2 m, NoDup (bases (l1 ++ l :: l2)) -> In m (l1 ++ l2) -> In m (l1 ++ l :: l2) /\ ln_base m <> ln_base l.
Proof.
  intros l1 l l2 m N J. unfold bases in N. rewrite map_app in N. cbn [map] in N. apply NoDup_remove in N. destruct N as [_ N]. split.
  - apply in_app_or in J. apply in_or_app. destruct J as [J|J]; [left; exact J|right; right; exact J].
  - intro E. apply N. rewrite <- E, <- map_app. apply in_map. exact J.
Qed.
Lemma in_middle : forall l1 (l : link) l2 m, In m (l1 ++ l :: l2) -> m = l \/ In m (l1 ++ l2).
Proof. intros l1 l l2 m J. apply in_app_or in J. destruct J as [J|[J|J]]; [right; apply in_or_app; left; exact J|left; congruence|right; apply in_or_app; right; exact J]. Qed.

Lemma sess_len : forall dev ls x, inv dev ls -> List.length (sess_list (dev x) (at_ x)) <= List.length ls.
Proof.
  intros dev ls x (_ & _ & _ & _ & ND & Ow & _). rewrite <- (map_length ss_alice_base). rewrite <- (map_length (fun l => Byte.x05 :: ln_base l) ls).
  apply NoDup_incl_length; [apply ND|]. intros e J. apply in_map_iff in J. destruct J as (s & <- & J). destruct (Ow x s J) as (l & Jl & _ & ->).
  apply (in_map (fun l => Byte.x05 :: ln_base l)). exact Jl.
Qed.
Lemma sess_len_free : forall dev ls x l, inv dev ls -> In l ls -> ~ has_link l x -> S (List.length (sess_list (dev x) (at_ x))) <= List.length ls.
Proof.
  intros dev ls x l (_ & Nb & _ & _ & ND & Ow & _) Jl Nh.
  assert (K : NoDup ((Byte.x05 :: ln_base l) :: map ss_alice_base (sess_list (dev x) (at_ x)))).
  { constructor; [|apply ND]. intro J. apply in_map_iff in J. destruct J as (s & E & J). destruct (Ow x s J) as (l' & Jl' & Hl & E').
    rewrite E' in E. injection E as E. rewrite (map_inj_in ln_base ls l' l Nb Jl' Jl E) in Hl. contradiction. }
  rewrite <- (map_length ss_alice_base). rewrite <- (map_length (fun l => Byte.x05 :: ln_base l) ls).
  apply (NoDup_incl_length K). intros e [<-|J]; [apply (in_map (fun l => Byte.x05 :: ln_base l)); exact Jl|].
  apply in_map_iff in J. destruct J as (s & <- & J). destruct (Ow x s J) as (l' & Jl' & _ & ->).
  apply (in_map (fun l => Byte.x05 :: ln_base l)). exact Jl'.
Qed.
(** The session of a link, by its base key. *)
Lemma the_session : forall dev ls l v x, inv dev ls -> In l ls -> G l v ->
  stands dev l v x -> has_link l x ->
  exists s, current_session (v (role l x)) (at_ x) = Some s /\ In s (sess_list (dev x) (at_ x)) /\ ss_alice_base s = Byte.x05 :: ln_base l /\ wf_state s /\
    ss_remote s = Byte.x05 :: kp_pub (w_pair (v (negb (role l x)))) /\ List.length (kp_pub (w_pair (v (negb (role l x))))) = 32 /\
    (forall e, In (Byte.x05 :: e) (map pc_ratchet (ss_receivers s)) -> In e (ln_keys l)) /\
    forall z, In z (sess_list (dev x) (at_ x)) -> ss_alice_base z = Byte.x05 :: ln_base l -> z = s.
Proof using H.
  intros dev ls l v x (_ & _ & _ & _ & ND & _) Jl Hy (_ & St & _) Hl. destruct (St Hl) as (s & Cu & J). exists s. split; [exact Cu|]. split; [exact J|].
  destruct (link_state C H _ _ _ _ _ _ _ (role l x) (gh_hist G _ _ Hy) Hl) as (s2 & Cu2 & W & Eb & Er & Lr & Rk). rewrite at_role, Cu in Cu2. injection Cu2 as <-.
  split; [exact Eb|]. split; [exact W|]. split; [exact Er|]. split; [exact Lr|]. split; [exact Rk|].
  intros z Jz Ez. apply (map_inj_in ss_alice_base (sess_list (dev x) (at_ x))); [apply ND|exact Jz|exact J|congruence].
Qed.

Lemma step_inv : forall dev l1 l l2 l' x w' r' s' t vx v, inv dev (l1 ++ l :: l2) -> wf_device w' -> w_pair w' = w_pair (dev x) ->
  ln_from l' = ln_from l -> ln_bundle l' = ln_bundle l -> ln_base l' = ln_base l ->
  (forall e, In e (ln_keys l') -> In e (ln_keys l) \/ ~ In e (all_keys (l1 ++ l :: l2))) ->
  (forall e, In e (tl (ln_keys l')) -> In e (tl (ln_keys l)) \/ ~ In e (all_keys (l1 ++ l :: l2))) ->
  (p_epoch (ln_par l false) <> 0 -> p_epoch (ln_par l' false) <> 0) -> has_link l' x -> (has_link l' (negb x) -> has_link l (negb x)) ->
  w_sess w' (at_ x) = Some r' -> Permutation (sessions_of r') (s' :: t) -> ss_alice_base s' = Byte.x05 :: ln_base l ->
  NoDup (map ss_alice_base t) -> (forall z, In z t <-> In z (sess_list (dev x) (at_ x)) /\ ss_alice_base z <> Byte.x05 :: ln_base l) ->
  w_signed w' = w_signed (dev x) ->
  (forall id, w_prekeys w' id = w_prekeys (dev x) id \/ bd_prekey_id (ln_bundle l) = Some id /\ ln_from l = negb x) ->
  (forall y, stands dev l v y) ->
  G l' (upd v (role l x) vx) ->
  w_pair vx = w_pair (dev x) -> current_session vx (at_ x) = Some s' ->
  inv (upd dev x w') (l1 ++ l' :: l2).
Proof using H.
  intros dev l1 l l2 l' x w' r' s' t vx v (Wd & Nb & Ln & Lk & ND & Ow & Ks & Ids) Ww Wp Ef Eb Ebs K1 K2 Ep Hx Hn Er Pm Es Nt Et Sg Pk St Hy Pv Cu.
  assert (Eall : bases (l1 ++ l' :: l2) = bases (l1 ++ l :: l2)) by (unfold bases; rewrite !map_app; cbn [map]; rewrite Ebs; reflexivity).
  assert (Sx : sess_list w' (at_ x) = sessions_of r') by (unfold sess_list; rewrite Er; reflexivity).
  assert (Ix : forall z, In z (sess_list w' (at_ x)) <-> z = s' \/ In z t).
  { intro z. rewrite Sx. split; [intro J; apply (Permutation_in _ Pm) in J; destruct J as [<-|J]; auto|].
    intro J. apply (Permutation_in _ (Permutation_sym Pm)). destruct J as [->|J]; [left; reflexivity|right; exact J]. }
  assert (Old : forall m, In m (l1 ++ l :: l2) -> m = l \/ In m (l1 ++ l2) /\ ln_base m <> ln_base l).
  { intros m J. destruct (in_middle _ _ _ _ J) as [->|J2]; [left; reflexivity|right]. split; [exact J2|exact (proj2 (middle _ _ _ _ Nb J2))]. }
  assert (New : forall m, In m (l1 ++ l' :: l2) -> m = l' \/ In m (l1 ++ l :: l2) /\ ln_base m <> ln_base l).
  { intros m J. destruct (in_middle _ _ _ _ J) as [->|J2]; [left; reflexivity|right]. exact (middle _ _ _ _ Nb J2). }
  assert (Jl : In l (l1 ++ l :: l2)) by (apply in_or_app; right; left; reflexivity).
  assert (Jl' : In l' (l1 ++ l' :: l2)) by (apply in_or_app; right; left; reflexivity).
  assert (Er' : forall y, role l' y = role l y) by (intro y; unfold role; rewrite Ef; reflexivity).
  assert (Hh : forall y, has_link l y -> has_link l' y) by (intros y [Q|Q]; [left; rewrite Er'; exact Q|right; auto]).
  split; [intro y; unfold upd; destruct (Bool.eqb y x); [exact Ww|apply Wd]|]. split; [rewrite Eall; exact Nb|].
  split; [rewrite app_length in *; exact Ln|]. split; [|split; [|split; [|split]]].
  - intros m Jm. destruct (New m Jm) as [->|[Jo Nm]].
    + exists (upd v (role l x) vx). split; [exact Hy|].
      intro y. unfold stands. rewrite Er', Eb, Ebs. destruct (Bool.bool_dec y x) as [->|Ny].
      * rewrite !upd_same. split; [congruence|]. split; [|intro X; contradiction]. intros _. exists s'. split; [exact Cu|]. apply Ix. left. reflexivity.
      * assert (Nr : role l y <> role l x) by (intro Q; apply Ny; unfold role in Q; destruct x, y, (ln_from l); try reflexivity; discriminate).
        rewrite !upd_other by assumption. assert (y = negb x) as -> by (destruct x, y; try reflexivity; destruct Ny; reflexivity). destruct (St (negb x)) as (S1 & S2 & S3).
        split; [exact S1|]. split; [intro Q; apply S2; auto|intro Q; apply S3; intro Z; apply Q; apply Hh; exact Z].
    + destruct (Lk m Jo) as (vm & Hm & Sm). exists vm. split; [exact Hm|]. intro y. destruct (Sm y) as (S1 & S2 & S3).
      destruct (Bool.bool_dec y x) as [->|Ny]; unfold stands; [rewrite !upd_same|rewrite !upd_other by assumption; exact (Sm y)].
      split; [congruence|]. split.
      * intro Q. destruct (S2 Q) as (z & Cz & Jz). exists z. split; [exact Cz|]. apply Ix. right. apply Et. split; [exact Jz|].
        destruct (link_state C H _ _ _ _ _ _ _ (role m x) (gh_hist G _ _ Hm) Q) as (z2 & Cz2 & _ & Ez & _). rewrite at_role, Cz in Cz2. injection Cz2 as <-. rewrite Ez. intro X. injection X as X. contradiction.
      * intro Q. destruct (S3 Q) as [U [P1 P2]]. split.
        { intros r z Ez Jz Bz. assert (J : In z (sess_list w' (at_ x))) by (apply sess_in; [exact Ww|eauto]). apply Ix in J.
          destruct J as [->|J]; [rewrite Es in Bz; injection Bz as Bz; congruence|]. apply Et in J. destruct J as [J _]. apply sess_in in J; [|apply Wd]. destruct J as (r0 & E0 & J0). exact (U r0 z E0 J0 Bz). }
        split; [rewrite Sg; exact P1|]. intros id Ei. destruct (Pk id) as [->|[Ei' Fl]]; [exact (P2 id Ei)|]. exfalso.
        refine (Ids m l id Jo Jl Nm _ Ei Ei'). rewrite Fl. unfold has_link, role in Q. destruct x, (ln_from m); try reflexivity; destruct Q; left; reflexivity.
  - intro y. destruct (Bool.bool_dec y x) as [->|Ny]; [rewrite upd_same|rewrite upd_other by assumption; apply ND]. rewrite Sx.
    apply (Permutation_NoDup (l := map ss_alice_base (s' :: t))); [apply Permutation_map, Permutation_sym; exact Pm|]. cbn [map]. constructor; [|exact Nt].
    intro J. apply in_map_iff in J. destruct J as (z & Ez & J). apply Et in J. destruct J as [_ J]. congruence.
  - intros y z. destruct (Bool.bool_dec y x) as [->|Ny]; [rewrite upd_same|rewrite upd_other by assumption]; intro J.
    + apply Ix in J. destruct J as [->|J]; [exists l'; rewrite Ebs; auto|]. apply Et in J. destruct J as [J Nz]. destruct (Ow x z J) as (m & Jm & Hm & Em).
      destruct (Old m Jm) as [->|[J2 _]]; [contradiction|]. exists m. split; [|auto]. apply in_app_or in J2. apply in_or_app. destruct J2; [left|right; right]; assumption.
    + destruct (Ow y z J) as (m & Jm & Hm & Em). destruct (Old m Jm) as [->|[J2 _]]; [exists l'; rewrite Ebs; auto|].
      exists m. split; [|auto]. apply in_app_or in J2. apply in_or_app. destruct J2; [left|right; right]; assumption.
  - intros m m' e Jm Jm' N Je Je'. destruct (New m Jm) as [->|[Jo Nm]], (New m' Jm') as [->|[Jo' Nm']]; [contradiction| | |exact (Ks m m' e Jo Jo' N Je Je')].
    + destruct (K2 e Je) as [Q|Q]; [exact (Ks l m' e Jl Jo' ltac:(congruence) Q Je')|]. apply Q. exact (keys_in_all _ _ _ Jo' Je').
    + destruct (K1 e Je') as [Q|Q]; [exact (Ks m l e Jo Jl Nm Je Q)|]. apply Q. exact (keys_in_all _ _ _ Jo (tl_in _ _ Je)).
  - intros m m' id Jm Jm' N Em Q. destruct (New m Jm) as [->|[Jo Nm]], (New m' Jm') as [->|[Jo' Nm']]; [contradiction| | |exact (Ids m m' id Jo Jo' N Em Q)].
    + rewrite Eb in Q. apply (Ids l m'); auto; congruence.
    + rewrite Eb. apply (Ids m l); auto; congruence.
Qed.
End Many.
