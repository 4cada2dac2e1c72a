(** Proofs of C97. *)
From Coq Require Import Lia List.
From Verif Require Import M_Base M_Proto M_Crypto M_Aes M_Curve M_Uuid M_Message M_Ratchet M_State M_Store M_Session M_Group
  S_Crypto S_Message S_Shape S_State S_Ratchet S_Session S_Api S_Group S_GroupMsg S_Size S_Atomic S_Transit S_Team S_GroupAttack
  P_Base P_Isolation P_Bundle P_Api P_Shape P_CrashConv P_Group P_GroupMsg P_Member P_Mailbox P_GroupSend P_GroupTop P_GroupKept P_Team.
Import ListNotations.
Local Open Scope nat_scope.

(** The fields of a message are those of its signed text. *)
Lemma parse_raw : forall x m, parse_senderkey x = Ok m -> sm_raw m = x /\ 65 <= List.length x /\ sm_version m = 3%N.
Proof.
  intros x m E. unfold parse_senderkey in E. destruct (Nat.ltb_spec (List.length x) 65) as [L|L]; [discriminate|].
  destruct x as [|v r]; [discriminate|]. destruct (N.eqb_spec (version_nibble v) 3) as [V|V]; cbn [negb] in E; [|discriminate].
  destruct (dec_fields _) as [fs|]; [|discriminate]. destruct (dist_parse _) as [d| |]; cbn [bind] in E; [|discriminate..].
  injection E as <-. cbn. auto.
Qed.
Lemma same_text : forall x1 x2 m1 m2, parse_senderkey x1 = Ok m1 -> parse_senderkey x2 = Ok m2 -> signed_text m1 = signed_text m2 ->
  sm_dist m1 = sm_dist m2 /\ sm_chain m1 = sm_chain m2 /\ sm_iter m1 = sm_iter m2 /\ sm_body m1 = sm_body m2.
Proof.
  intros x1 x2 m1 m2 E1 E2. destruct (parse_raw _ _ E1) as (R1 & L1 & _), (parse_raw _ _ E2) as (R2 & L2 & _).
  unfold signed_text. rewrite R1, R2. clear R1 R2. unfold parse_senderkey in *.
  destruct (Nat.ltb_spec (List.length x1) 65); [lia|]. destruct (Nat.ltb_spec (List.length x2) 65); [lia|].
  destruct x1 as [|v1 r1]; [discriminate|]. destruct x2 as [|v2 r2]; [discriminate|]. cbn [List.length] in *.
  replace (S (List.length r1) - 64) with (S (List.length r1 - 64)) by lia. replace (S (List.length r2) - 64) with (S (List.length r2 - 64)) by lia.
  cbn [firstn]. intro T. injection T as <- T.
  replace (S (List.length r1 - 64) - 1) with (List.length r1 - 64) in E1 by lia. replace (S (List.length r2 - 64) - 1) with (List.length r2 - 64) in E2 by lia.
  replace (S (List.length r1) - 64 - 1) with (List.length r1 - 64) in E1 by lia. replace (S (List.length r2) - 64 - 1) with (List.length r2 - 64) in E2 by lia.
  rewrite T in E1. destruct (negb _); [discriminate|]. destruct (dec_fields _) as [fs|]; [|discriminate].
  destruct (dist_parse _) as [d| |]; cbn [bind] in *; [|discriminate..]. injection E1 as <-. injection E2 as <-. cbn. auto.
Qed.

(** What a decryption that fails or is cut off can leave. *)
Lemma gdecrypt_leaves : forall C a m w w', wf_device w -> leaves (gdecrypt C a m) w w' -> w' = w \/
  exists r s key, w_groups w a (sm_dist m) = Some r /\ gr_find (sm_chain m) r = Some s /\ wf_grecord r /\ wf_gstate s /\
    gs_pub s = Byte.x05 :: key /\ signed_by C key m /\ sm_version m = 3%N /\
    exists wt, (wt = w \/ wt = set_group w a (sm_dist m) (gr_set (sm_chain m) (gnext C s m) r)) /\ w' = set_group wt a (sm_dist m) (gr_set (sm_chain m) (gnext C s m) r).
Proof.
  intros C a m w w' W (fs & [-> |(n & ->)]).
  - destruct (gdecrypt_cases C a m fs w W) as [(-> & _)|(r & s & key & E1 & E2 & E3 & E4 & E5 & E6 & E7 & E8 & _)]; [left; reflexivity|].
    cbv zeta in E8. rewrite E8. set (r' := gr_set _ _ _) in *.
    assert (Q : forall wt, wt = w \/ (exists wt0, (wt0 = w \/ wt0 = set_group w a (sm_dist m) r') /\ wt = set_group wt0 a (sm_dist m) r') -> wt = w \/
       exists r s key, w_groups w a (sm_dist m) = Some r /\ gr_find (sm_chain m) r = Some s /\ wf_grecord r /\ wf_gstate s /\
       gs_pub s = Byte.x05 :: key /\ signed_by C key m /\ sm_version m = 3%N /\
       exists wt0, (wt0 = w \/ wt0 = set_group w a (sm_dist m) (gr_set (sm_chain m) (gnext C s m) r)) /\ wt = set_group wt0 a (sm_dist m) (gr_set (sm_chain m) (gnext C s m) r)).
    { intros wt [X|X]; [auto|right]. exists r, s, key. repeat (split; [assumption|]). exact X. }
    apply Q. destruct (gresult C s m); [destruct (hd_fault _)|..]; cbn [snd]; destruct (w_shared w); eauto.
  - destruct (gdecrypt_cases C a m fs w W) as [(_ & E & _)|(r & s & key & E1 & E2 & E3 & E4 & E5 & E6 & E7 & _ & E9)]; [left; apply E|].
    set (r' := gr_set (sm_chain m) (gnext C s m) r).
    assert (Q : forall wt, wt = w \/ (exists wt0, (wt0 = w \/ wt0 = set_group w a (sm_dist m) r') /\ wt = set_group wt0 a (sm_dist m) r') -> wt = w \/
       exists r s key, w_groups w a (sm_dist m) = Some r /\ gr_find (sm_chain m) r = Some s /\ wf_grecord r /\ wf_gstate s /\
       gs_pub s = Byte.x05 :: key /\ signed_by C key m /\ sm_version m = 3%N /\
       exists wt0, (wt0 = w \/ wt0 = set_group w a (sm_dist m) (gr_set (sm_chain m) (gnext C s m) r)) /\ wt = set_group wt0 a (sm_dist m) (gr_set (sm_chain m) (gnext C s m) r)).
    { intros wt [X|X]; [auto|right]. exists r, s, key. repeat (split; [assumption|]). exact X. }
    apply Q. clear Q. remember (crash n (gdecrypt C a m) fs w) as v eqn:Hv.
    destruct n as [|n]; cbn [crash] in Hv; auto. unfold gdecrypt in Hv. unfold pdo at 1 in Hv. cbn [pstep exec_f fallible] in Hv. rewrite E9 in Hv. cbn [exec] in Hv. rewrite E1, E2, (gs_ver_wf s E4), E7 in Hv.
    cbn [N.eqb Pos.eqb negb] in Hv. destruct (gs_public_wf s E4) as (key' & _ & Eb & Ek). rewrite Ek in Hv. rewrite E5 in Eb. change (Byte.x05 :: key) with (pub_bytes key) in Eb. apply P_Curve.pub_bytes_inj in Eb. subst key'.
    apply verify_signed in E6. cbn [plift] in Hv. rewrite E6 in Hv. cbn [plift negb] in Hv. unfold r', gnext. destruct (gmessage_key C s (sm_iter m)) as [o s'] eqn:G. cbn [fst snd] in *.
    destruct n as [|n]; cbn [crash] in Hv; auto. unfold pdo at 1 in Hv. cbn [pstep exec_f fallible exec] in Hv.
    set (wt := if w_shared w then _ else w) in *.
    assert (Hwt : wt = w \/ wt = set_group w a (sm_dist m) (gr_set (sm_chain m) s' r)) by (unfold wt; destruct (w_shared w); auto).
    assert (T : v = wt -> v = w \/ exists wt0, (wt0 = w \/ wt0 = set_group w a (sm_dist m) (gr_set (sm_chain m) s' r)) /\ v = set_group wt0 a (sm_dist m) (gr_set (sm_chain m) s' r)).
    { intros ->. destruct Hwt as [X|X]; eauto. }
    destruct n as [|n]; cbn [crash] in Hv; [auto|]. destruct o as [mk| |]; cbn [plift pstep] in Hv; [|rewrite crash_ret in Hv; auto..].
    destruct (cbc_decrypt C (gk_cipher mk) (gk_iv mk) (sm_body m)); cbn [plift pstep pdo] in Hv; [|rewrite crash_ret in Hv; auto..]. cbn [exec_f fallible exec] in Hv.
    destruct (hd_fault (tl (tl fs))); cbn [crash] in Hv; rewrite crash_ret in Hv; eauto.
Qed.

Section GroupAttack.
Variable C : Crypto.
Hypothesis H : CryptoOk C.

(** The messages sent are genuine. *)
Lemma sent_all : forall dm k sent, sent_after C dm k sent -> forall pt y, In (pt, y) sent ->
  genuine C (channel_of dm) (sm_iter y) pt y /\ (dm_iter dm <= sm_iter y < dm_iter dm + N.of_nat k)%N /\ (sm_iter y + 1 < 4294967296)%N /\ parse_senderkey (sm_raw y) = Ok y.
Proof using H.
  intros dm k sent (me & dist & sr & rnd & fs & w0 & w1 & w2 & O & Ld & E & G & Bk & Sz) pt y J.
  destruct (dist_describes _ _ _ _ _ _ _ _ _ H O E) as (O1 & Tl & Sp & _).
  destruct (gincreasing _ _ _ _ _ _ _ G _ _ _ _ H O1 Sp Bk) as [Gm _].
  destruct (In_nth_error _ _ J) as [j Ej]. destruct (Gm j pt y Ej) as (Q1 & Q2 & Q3 & Q4).
  split; [|split; [lia|split; [lia|exact (tries_posted C me dist k w1 sent w2 H Ld G (proj1 O1) pt y J (Sz _ _ J))]]].
  split; [cbn; lia|]. cbn [channel_of cn_key cn_first cn_chain cn_dist cn_signing]. destruct Tl as (_ & -> & _). exact Q4.
Qed.
(** A copy is as genuine as its original. *)
Lemma copy_genuine : forall c n pt y x m, genuine C c n pt y -> parse_senderkey (sm_raw y) = Ok y -> parse_senderkey x = Ok m -> signed_text y = signed_text m ->
  signed_by C (cn_signing c) m -> genuine C c n pt m.
Proof using.
  intros c n pt y x m (L & V & E1 & E2 & E3 & _ & E4) P1 P2 T Sg. destruct (same_text _ _ _ _ P1 P2 T) as (Q1 & Q2 & Q3 & Q4).
  split; [exact L|]. split; [apply (parse_raw _ _ P2)|]. rewrite <- Q1, <- Q2, <- Q3, <- Q4. auto.
Qed.
Lemma text_search : forall (t : bytes) (sent : list (bytes * senderkeymsg)),
  (exists pt y, In (pt, y) sent /\ signed_text y = t) \/ forall pt y, In (pt, y) sent -> signed_text y <> t.
Proof using.
  intros t sent. induction sent as [|[pt y] l IH]; [right; intros ? ? []|].
  destruct (list_eq_dec Byte.byte_eq_dec (signed_text y) t) as [E|N]; [left; exists pt, y; split; [left; reflexivity|exact E]|].
  destruct IH as [(p & z & J & E)|N2]; [left; exists p, z; split; [right; exact J|exact E]|]. right. intros p z [X|J]; [injection X as <- <-; exact N|eauto].
Qed.

(** A text of the channel: sent, old, or forged. *)
Lemma text_cases : forall dm k sent x m, sent_after C dm k sent -> parse_senderkey x = Ok m -> on_channel (channel_of dm) m -> signed_by C (cn_signing (channel_of dm)) m ->
  (exists pt y, In (pt, y) sent /\ signed_text y = signed_text m /\ genuine C (channel_of dm) (sm_iter y) pt m) \/ (sm_iter m < cn_first (channel_of dm))%N \/ group_forgery C (channel_of dm) sent x.
Proof using H.
  intros dm k sent x m Se P Ch Sg. destruct (N.lt_ge_cases (sm_iter m) (cn_first (channel_of dm))) as [L|L]; [auto|].
  destruct (text_search (signed_text m) sent) as [(pt & y & J & T)|N].
  - left. exists pt, y. split; [exact J|]. split; [exact T|]. destruct (sent_all _ _ _ Se _ _ J) as (G & _ & _ & Py). eapply copy_genuine; eauto.
  - right. right. exists m. auto.
Qed.
(** An old message changes nothing. *)
Lemma old_kept : forall c b s m, rel C c b s -> (sm_iter m < cn_first c)%N -> gresult C s m = Err EDuplicate /\ gnext C s m = s.
Proof using.
  intros c b s m (Ws & _ & _ & Lb & Es & _ & Eo & _ & F) L. unfold gresult, gnext. rewrite gmessage_key_exact by exact Ws. rewrite Es.
  destruct (N.ltb_spec (sm_iter m) (mb_next b)) as [_|]; [|lia].
  destruct (take_gmk (sm_iter m) (gs_keys s)) as [[k l]|] eqn:T; [|split; reflexivity]. exfalso.
  apply take_gmk_some in T. destruct T as (x & y & E & _ & Ek & _). rewrite E in F. apply Forall_app in F. destruct F as [_ F]. inversion F as [|? ? [Q _] _]; subst. lia.
Qed.

(** Any bytes. *)
Theorem group_any_bytes : forall dm k sent a l w x w', sent_after C dm k sent -> member C a (channel_of dm) l w -> leaves (greceive_bytes C a x) w w' ->
  ~ group_forgery C (channel_of dm) sent x ->
  member C a (channel_of dm) l w' \/ exists pt y, In (pt, y) sent /\ copy_of y x /\ ~ accepted l (sm_iter y) /\ member C a (channel_of dm) (l ++ [(sm_iter y, pt, Ok pt)]) w'.
Proof using H.
  intros dm k sent a l w x w' Se M Lv Nf. set (c := channel_of dm) in *.
  destruct (member_state C H c a l w M) as (W & s & Fo & R).
  unfold greceive_bytes in Lv. destruct (parse_senderkey x) as [m|e|] eqn:P; cbn [plift] in Lv.
  2,3: left; destruct Lv as (fs & [-> |(n & ->)]); [exact M|rewrite crash_ret; exact M].
  destruct (leaves_shape _ _ _ (gdecrypt_shape C H a m) W Lv) as [W' _].
  assert (Keep : (forall s0, follows w a (cn_dist c) (cn_chain c) s0 -> follows w' a (cn_dist c) (cn_chain c) s0) -> member C a c l w') by (intro K; eapply mem_other; eauto).
  destruct (gdecrypt_leaves C a m w w' W Lv) as [-> |(r & s0 & key & Er & Ef & Wr & Ws & Ep & Sg & V & wt & Hwt & ->)]; [left; exact M|].
  assert (F0 : follows w a (sm_dist m) (sm_chain m) s0) by (eapply follows_of_find; eauto).
  destruct (distid_eqb (cn_dist c) (sm_dist m)) eqn:Qd.
  2: { left. apply Keep. intros s1 (r1 & E1 & J & Ec). exists r1. split; [|auto]. rewrite <- E1.
       destruct Hwt as [-> | ->]; unfold set_group; cbn [w_groups]; rewrite addr_eqb_refl, Qd; reflexivity. }
  apply distid_eqb_spec in Qd. symmetry in Qd.
  destruct (N.eqb_spec (sm_chain m) (cn_chain c)) as [Qc|Qc].
  2: { left. apply Keep. intros s1 (r1 & E1 & J & Ec). rewrite Qd in Er. rewrite Er in E1. injection E1 as <-. rewrite Qd. eexists. split; [apply group_set_same|].
       split; [|exact Ec]. apply gr_set_other; [exact J|]. congruence. }
  assert (s0 = s) as ->. { rewrite Qd, Qc in F0. exact (P_GroupMsg.follows_unique _ _ _ _ _ _ W F0 Fo). }
  assert (key = cn_signing c) as ->.
  { pose proof R as (_ & _ & Eb & _). rewrite Ep in Eb. apply P_Curve.pub_bytes_inj. exact Eb. }
  assert (Same : gnext C s m = s -> forall s1, follows w a (cn_dist c) (cn_chain c) s1 ->
            follows (set_group wt a (sm_dist m) (gr_set (sm_chain m) (gnext C s m) r)) a (cn_dist c) (cn_chain c) s1).
  { intros E s1 F1. rewrite (P_GroupMsg.follows_unique _ _ _ _ _ _ W F1 Fo), E, <- Qd, <- Qc.
    apply (gr_set_follows a w wt _ _ r s s); [exact Er|exact Ef|]. rewrite Qc. apply R. }
  destruct (text_cases dm k sent x m Se P (conj Qd Qc) Sg) as [(pt & y & J & T & G)|[L|Fg]]; [|left; apply Keep, Same; eapply old_kept; eauto|contradiction].
  destruct (sent_all _ _ _ Se _ _ J) as (_ & _ & B & _).
  destruct (arrive_state C H c _ _ _ _ _ R G B) as (An & _ & Nx).
  destruct (run0 (gdecrypt C a m) w) as [r0 w0] eqn:E0.
  pose proof (gdecrypt_runs C a m [] w r s _ Wr Er Ef Ws Ep Sg V eq_refl) as E1. cbv zeta in E1. cbn [hd_fault tl] in E1. unfold run0 in E0. rewrite E1 in E0.
  destruct (fst (arrive (box c l) (sm_iter y))) eqn:Vd; cbn [answer] in An; [|left; apply Keep, Same, Nx; discriminate..].
  rewrite An in E0. injection E0 as <- <-. right. exists pt, y. split; [exact J|]. split; [exists m; auto|].
  assert (E2 : run0 (gdecrypt C a m) w = (Ok pt, set_group (if w_shared w then set_group w a (sm_dist m) (gr_set (sm_chain m) (gnext C s m) r) else w) a (sm_dist m) (gr_set (sm_chain m) (gnext C s m) r))).
  { unfold run0. rewrite E1, An. reflexivity. }
  split.
  { intro A. pose proof (proj1 (delivered_once C H c a l w _ _ _ _ _ M G B E2) A) as X. discriminate. }
  eapply mem_other; [eapply mem_arrival; [exact M|exact G|exact B|exact E2]|exact W'|].
  intros s1 (r1 & G1 & G2). rewrite <- Qd in *. rewrite group_set_same in G1. injection G1 as <-. eexists. split; [apply group_set_same|exact G2].
Qed.

(** What is read. *)
Theorem group_heard : forall dm k sent a l w x fs pt w', sent_after C dm k sent -> member C a (channel_of dm) l w ->
  run (greceive_bytes C a x) fs w = (Ok pt, w') -> exists m, parse_senderkey x = Ok m /\
  (on_channel (channel_of dm) m -> group_forgery C (channel_of dm) sent x \/ exists y, In (pt, y) sent /\ copy_of y x /\ ~ accepted l (sm_iter y)).
Proof using H.
  intros dm k sent a l w x fs pt w' Se M E. set (c := channel_of dm) in *. destruct (member_state C H c a l w M) as (W & s & Fo & R).
  unfold greceive_bytes in E. destruct (parse_senderkey x) as [m|e|] eqn:P; cbn [plift] in E; [|discriminate..].
  exists m. split; [reflexivity|]. intros [Qd Qc].
  destruct (gdecrypt_cases C a m fs w W) as [(_ & _ & N)|(r & s0 & key & Er & Ef & Wr & Ws & Ep & Sg & V & E1 & _)]; [rewrite E in N; destruct (N pt eq_refl)|].
  assert (F0 : follows w a (sm_dist m) (sm_chain m) s0) by (eapply follows_of_find; eauto).
  assert (s0 = s) as ->. { rewrite Qd, Qc in F0. exact (P_GroupMsg.follows_unique _ _ _ _ _ _ W F0 Fo). }
  assert (key = cn_signing c) as ->.
  { pose proof R as (_ & _ & Eb & _). rewrite Ep in Eb. apply P_Curve.pub_bytes_inj. exact Eb. }
  cbv zeta in E1. rewrite E in E1.
  assert (Ro : gresult C s m = Ok pt).
  { destruct (gresult C s m) as [p| |]; [|discriminate..]. destruct (hd_fault _); [|discriminate..]. injection E1 as <- _. reflexivity. }
  destruct (text_cases dm k sent x m Se P (conj Qd Qc) Sg) as [(p & y & J & T & G)|[L|Fg]]; [|pose proof (proj1 (old_kept _ _ _ _ R L)); congruence|left; exact Fg].
  right. destruct (sent_all _ _ _ Se _ _ J) as (_ & _ & B & _).
  pose proof (gdecrypt_runs C a m [] w r s _ Wr Er Ef Ws Ep Sg V eq_refl) as E2. cbv zeta in E2. cbn [hd_fault tl] in E2. rewrite Ro in E2.
  destruct (arrive_state C H c _ _ _ _ _ R G B) as (An & _ & _). rewrite Ro in An.
  destruct (fst (arrive (box c l) (sm_iter y))) eqn:Vd; cbn [answer] in An; [|discriminate..]. injection An as <-.
  exists y. split; [exact J|]. split; [exists m; auto|]. intro A. pose proof (proj1 (delivered_once C H c a l w _ _ _ _ _ M G B E2) A) as X. discriminate.
Qed.

(** Whole sieges. *)
Lemma siege_member : forall dm k sent a w xs w', siege C a w xs w' -> forall l, sent_after C dm k sent -> member C a (channel_of dm) l w ->
  (forall x, In x xs -> ~ group_forgery C (channel_of dm) sent x) ->
  exists l', member C a (channel_of dm) (l ++ l') w' /\ forall n pt r, In (n, pt, r) l' -> r = Ok pt /\ exists y x, In (pt, y) sent /\ sm_iter y = n /\ In x xs /\ copy_of y x.
Proof using H.
  intros dm k sent a w xs w' Si. induction Si as [w|w x w1 xs w2 Lv Si IH]; intros l Se M Nf.
  - exists []. rewrite app_nil_r. split; [exact M|intros ? ? ? []].
  - destruct (group_any_bytes dm k sent a l w x w1 Se M Lv (Nf x (or_introl eq_refl))) as [M1|(pt & y & J & Cp & _ & M1)].
    + destruct (IH l Se M1 (fun z J => Nf z (or_intror J))) as (l' & M2 & Q). exists l'. split; [exact M2|].
      intros n p r Jl. destruct (Q n p r Jl) as (-> & y & z & A1 & A2 & A3 & A4). split; [reflexivity|]. exists y, z. cbn. auto.
    + destruct (IH _ Se M1 (fun z J => Nf z (or_intror J))) as (l' & M2 & Q). exists ((sm_iter y, pt, Ok pt) :: l'). rewrite <- app_assoc in M2. split; [exact M2|].
      intros n p r [X|Jl]; [injection X as <- <- <-; split; [reflexivity|]; exists y, x; cbn; auto|].
      destruct (Q n p r Jl) as (-> & y' & z & A1 & A2 & A3 & A4). split; [reflexivity|]. exists y', z. cbn. auto.
Qed.
(** Iterations identify the messages sent. *)
Lemma sent_unique : forall dm k sent, sent_after C dm k sent -> forall pt1 y1 pt2 y2, In (pt1, y1) sent -> In (pt2, y2) sent -> sm_iter y1 = sm_iter y2 -> y1 = y2 /\ pt1 = pt2.
Proof using H.
  intros dm k sent (me & dist & sr & rnd & fs & w0 & w1 & w2 & O & Ld & E & G & Bk & Sz) pt1 y1 pt2 y2 J1 J2 Q.
  destruct (dist_describes _ _ _ _ _ _ _ _ _ H O E) as (O1 & Tl & Sp & _).
  destruct (gincreasing _ _ _ _ _ _ _ G _ _ _ _ H O1 Sp Bk) as [_ Inc].
  destruct (In_nth_error _ _ J1) as [j1 E1]. destruct (In_nth_error _ _ J2) as [j2 E2].
  destruct (Nat.lt_trichotomy j1 j2) as [L|[-> |L]]; [pose proof (Inc _ _ _ _ _ _ L E1 E2); lia| |pose proof (Inc _ _ _ _ _ _ L E2 E1); lia].
  rewrite E1 in E2. injection E2 as -> ->. auto.
Qed.
Theorem group_siege : forall dm k sent a w xs w' pt y, sent_after C dm k sent -> k <= 2000 -> member C a (channel_of dm) [] w -> siege C a w xs w' ->
  (forall x, In x xs -> ~ group_forgery C (channel_of dm) sent x) -> In (pt, y) sent ->
  fst (run0 (greceive_bytes C a (sm_raw y)) w') = Ok pt \/ fst (run0 (greceive_bytes C a (sm_raw y)) w') = Err EDuplicate /\ exists x, In x xs /\ copy_of y x.
Proof using H.
  intros dm k sent a w xs w' pt y Se Lk M Si Nf J. destruct (siege_member dm k sent a w xs w' Si [] Se M Nf) as (l & M1 & Q). cbn [app] in M1.
  destruct (sent_all _ _ _ Se _ _ J) as (G & Bn & B & Py). unfold greceive_bytes. rewrite Py. cbn [plift].
  destruct (run0 (gdecrypt C a y) w') as [r w2] eqn:Er. cbn [fst].
  destruct (delivered_once C H (channel_of dm) a l w' _ _ _ r w2 M1 G B Er) as [D1 D2].
  destruct (accepted_dec l (sm_iter y)) as [A|A].
  - right. split; [exact (D1 A)|]. destruct A as (p & z & Jl). destruct (Q _ _ _ Jl) as (_ & y' & x & A1 & A2 & A3 & A4).
    destruct (sent_unique dm k sent Se _ _ _ _ A1 J A2) as [-> _]. eauto.
  - left. apply D2; [exact A|left; cbn; lia|]. intros n' (p & z & Jl). destruct (Q _ _ _ Jl) as (_ & y' & x & A1 & A2 & _).
    destruct (sent_all _ _ _ Se _ _ A1) as (_ & Bn' & _). lia.
Qed.
End GroupAttack.
