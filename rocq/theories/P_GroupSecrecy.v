(** Proofs for C80. *)
From Verif Require Import M_Base M_Crypto M_Aes M_Curve M_Proto M_Uuid M_Message M_Ratchet M_State M_Store M_Session M_Group
  S_Crypto S_Message S_State S_Shape S_Ratchet S_Session S_Curve S_Aes S_Wire S_Uuid S_Api S_Group S_GroupMsg S_Isolation S_X3dh S_Used S_GroupSecrecy
  P_Base P_Proto P_Curve P_State P_Shape P_Ratchet P_Message P_Aes P_Chain P_Decrypt P_Init P_Record P_Verify P_CryptoTop P_Prog P_Group P_Api P_Isolation P_Bundle P_X3dh
  P_History P_GroupMsg P_Mailbox P_Member P_Keep P_GroupSend P_GroupTop P_Used P_Captured.
From Coq Require Import ZifyBool ZifyNat ZifyN.
Local Open Scope nat_scope.

(** *** Symbolic *)
Section Ok.
Variables (St : gterm -> Prop) (kt : N -> Prop).
Fixpoint gok (t : gterm) : Prop :=
  match t with
  | GPub _ => True
  | GKey => St t
  | GText n => kt n
  | GCat x y => gok x /\ gok y
  | GHmac x y => St t \/ (gok x /\ gok y)
  | GFirst _ x => gok x
  | GSkip _ x => gok x
  | GEnc x _ z => gok x -> gok z
  end.
Lemma gok_closed : forall K : gterm -> Prop, (forall t, K t -> gok t) -> forall t, gderives K t -> gok t.
Proof. intros K HK t D. induction D; cbn [gok] in *; tauto || auto. Qed.
End Ok.
Section Symbolic.
Variables (c : channel) (bs : mailbox -> Prop) (n0 : N).
Definition gexposed (n : N) : Prop := exists b, bs b /\ ((mb_next b <= n)%N \/ In n (mb_open b)).
Hypothesis Bs : forall b, bs b -> (cn_first c <= mb_next b)%N /\ forall i, In i (mb_open b) -> (cn_first c <= i)%N.
Definition gstolen (t : gterm) : Prop := exists b, bs b /\ In t (gheld c b).
Notation okt := (gok gstolen (fun n => n = n0 -> gexposed n0)).
Notation step := (fun x => GHmac x (GPub [Byte.x02])).
Lemma giter_S : forall i x, Nat.iter (S i) step x = GHmac (Nat.iter i step x) (GPub [Byte.x02]).
Proof. reflexivity. Qed.
Lemma giter_inj : forall i j, Nat.iter i step GKey = Nat.iter j step GKey -> i = j.
Proof.
  induction i as [|i IH]; intros [|j] E; [reflexivity|discriminate|discriminate|]. rewrite !giter_S in E.
  f_equal. apply IH. exact (f_equal (fun t => match t with GHmac x _ => x | _ => t end) E).
Qed.
Lemma gchain_inj : forall i j, (cn_first c <= i)%N -> (cn_first c <= j)%N -> gchain_of c i = gchain_of c j -> i = j.
Proof. intros i j L1 L2 E. apply giter_inj in E. lia. Qed.
Lemma gchain_shape : forall i, gchain_of c i = GKey \/ exists x, gchain_of c i = GHmac x (GPub [Byte.x02]).
Proof. intro i. unfold gchain_of. destruct (N.to_nat (i - cn_first c)); [left; reflexivity|right; eexists; apply giter_S]. Qed.
Lemma stolen_cases : forall t, gstolen t -> exists b, bs b /\ (t = gchain_of c (mb_next b) \/ exists i, In i (mb_open b) /\ t = gseed_of c i).
Proof.
  intros t (b & Ib & [E|J]); exists b; (split; [exact Ib|]); [left; auto|right]. apply in_map_iff in J. destruct J as (i & E & J). exists i. auto.
Qed.
Lemma stolen_shape : forall t, gstolen t -> t = GKey \/ exists x i, t = GHmac x (GPub i).
Proof.
  intros t G. apply stolen_cases in G. destruct G as (b & _ & [->|(i & _ & ->)]).
  - destruct (gchain_shape (mb_next b)) as [->|(x & ->)]; eauto.
  - right. unfold gseed_of. eauto.
Qed.
Lemma stolen_chain : forall i, (cn_first c <= i)%N -> gstolen (gchain_of c i) -> exists b, bs b /\ mb_next b = i.
Proof.
  intros i L G. apply stolen_cases in G. destruct G as (b & Ib & [E|(j & _ & E)]).
  - exists b. split; [exact Ib|]. apply gchain_inj in E; auto. apply Bs; exact Ib.
  - exfalso. unfold gseed_of in E. destruct (gchain_shape i) as [Q|(x & Q)]; rewrite Q in E; discriminate E.
Qed.
Lemma stolen_seed : forall i, (cn_first c <= i)%N -> gstolen (gseed_of c i) -> exists b, bs b /\ In i (mb_open b).
Proof.
  intros i L G. apply stolen_cases in G. destruct G as (b & Ib & [E|(j & J & E)]).
  - exfalso. unfold gseed_of in E. destruct (gchain_shape (mb_next b)) as [Q|(x & Q)]; rewrite Q in E; discriminate E.
  - exists b. split; [exact Ib|]. unfold gseed_of in E. apply (f_equal (fun t => match t with GHmac x _ => x | _ => t end)) in E.
    apply gchain_inj in E; [subst j; exact J|exact L|]. apply (proj2 (Bs b Ib)). exact J.
Qed.
Lemma chain_reached : forall k i, i = (cn_first c + N.of_nat k)%N -> okt (gchain_of c i) -> exists b, bs b /\ (mb_next b <= i)%N.
Proof.
  induction k as [|k IH]; intros i E G.
  - assert (Q : gchain_of c i = GKey) by (unfold gchain_of; replace (N.to_nat (i - cn_first c)) with 0 by lia; reflexivity).
    rewrite Q in G. cbn [gok] in G. rewrite <- Q in G. apply stolen_chain in G; [|lia]. destruct G as (b & Ib & Eb). exists b. split; [exact Ib|lia].
  - set (j := (cn_first c + N.of_nat k)%N). assert (Q : gchain_of c i = GHmac (gchain_of c j) (GPub [Byte.x02])).
    { unfold gchain_of. replace (N.to_nat (i - cn_first c)) with (S k) by lia. replace (N.to_nat (j - cn_first c)) with k by lia. apply giter_S. }
    rewrite Q in G. cbn [gok] in G. destruct G as [G|[G _]].
    + rewrite <- Q in G. apply stolen_chain in G; [|lia]. destruct G as (b & Ib & Eb). exists b. split; [exact Ib|lia].
    + destruct (IH j eq_refl G) as (b & Ib & L). exists b. split; [exact Ib|lia].
Qed.
Lemma gcipher_known : forall i, (cn_first c <= i)%N -> okt (gcipher_of c i) -> gexposed i.
Proof.
  intros i L G. unfold gcipher_of, gblock in G. cbn [gok ghkdf_block] in G. destruct G as [G _].
  destruct G as [G|[G _]]; [apply stolen_shape in G; destruct G as [G|(x & y & G)]; discriminate G|].
  destruct G as [G|[_ G]]; [apply stolen_shape in G; destruct G as [G|(x & y & G)]; discriminate G|].
  unfold gseed_of in G. cbn [gok] in G. destruct G as [G|[G _]].
  - apply (stolen_seed i L) in G. destruct G as (b & Ib & J). exists b. auto.
  - destruct (chain_reached (N.to_nat (i - cn_first c)) i ltac:(lia) G) as (b & Ib & Lb). exists b. auto.
Qed.
Lemma gchain_up : forall K i k, (cn_first c <= i)%N -> gderives K (gchain_of c i) -> gderives K (gchain_of c (i + N.of_nat k)).
Proof.
  intros K i k L D. induction k as [|k IH]; [replace (i + N.of_nat 0)%N with i by lia; exact D|].
  assert (Q : gchain_of c (i + N.of_nat (S k)) = GHmac (gchain_of c (i + N.of_nat k)) (GPub [Byte.x02])).
  { unfold gchain_of. replace (N.to_nat (i + N.of_nat (S k) - cn_first c)) with (S (N.to_nat (i + N.of_nat k - cn_first c))) by lia. apply giter_S. }
  rewrite Q. apply gd_hmac; [exact IH|apply gd_pub].
Qed.
Lemma gcipher_up : forall K b, (cn_first c <= mb_next b)%N -> (forall t, In t (gheld c b) -> gderives K t) -> (mb_next b <= n0)%N \/ In n0 (mb_open b) ->
  gderives K (gcipher_of c n0).
Proof.
  intros K b Lb G X.
  assert (D : gderives K (gseed_of c n0)).
  { destruct X as [X|X].
    - apply gd_hmac; [|apply gd_pub]. replace n0 with (mb_next b + N.of_nat (N.to_nat (n0 - mb_next b)))%N by lia.
      apply gchain_up; [exact Lb|]. apply G. left. reflexivity.
    - apply G. right. apply in_map. exact X. }
  assert (B : forall i, gderives K (gblock c n0 i)).
  { intro i. unfold gblock. induction i as [|i IH]; [apply gd_pub|]. cbn [ghkdf_block]. apply gd_hmac; [apply gd_hmac; [apply gd_pub|exact D]|].
    apply gd_cat; [exact IH|apply gd_pub]. }
  apply gd_cat; [apply gd_skip|apply gd_first]; apply B.
Qed.
End Symbolic.
Section Listed.
Variables (c : channel) (bs : list mailbox) (sent : list N) (n0 : N).
Notation Bp := (fun b => In b bs).
Hypothesis Bs : forall b, In b bs -> (cn_first c <= mb_next b)%N /\ forall i, In i (mb_open b) -> (cn_first c <= i)%N.
Hypothesis Sn : forall i, In i sent -> (cn_first c <= i)%N.
Lemma gsafe : group_stolen c bs sent n0 -> gexposed Bp n0.
Proof.
  intro D. apply (gok_closed (gstolen c Bp) (fun n => n = n0 -> gexposed Bp n0)) in D; [apply D; reflexivity|].
  intros t [G|[(i & Ii & ->)|(i & -> & G)]].
  - assert (Gt : gstolen c Bp t) by exact G. apply stolen_shape in Gt. destruct Gt as [->|(x & i & ->)]; cbn [gok]; [exact G|left; exact G].
  - unfold gbody_of. cbn [gok]. intros G E. subst i. exact (gcipher_known c Bp n0 Bs n0 (Sn n0 Ii) G).
  - cbn [gok]. intro E. contradiction.
Qed.
Lemma greads : In n0 sent -> gexposed Bp n0 -> group_stolen c bs sent n0.
Proof.
  intros J (b & Ib & X). apply gd_dec with (x := gcipher_of c n0) (y := giv_of c n0); [apply gd_known; right; left; exists n0; auto|].
  apply (gcipher_up c Bp n0 Bs _ b); [apply Bs; exact Ib| |exact X]. intros t It. apply gd_known. left. exists b. auto.
Qed.
End Listed.

(** *** The terms are the bytes *)
Section Bytes.
Variable C : Crypto.
Hypothesis H : CryptoOk C.
Variable c : channel.
Variable tx : N -> bytes.
Notation val := (gvalue C (cn_key c) tx).
Lemma gvalue_block : forall q info i, val (ghkdf_block q info i) = rfc_T C (val q) info i.
Proof. intros q info i. induction i as [|i IH]; [reflexivity|]. cbn [ghkdf_block gvalue rfc_T]. rewrite IH. reflexivity. Qed.
Lemma gvalue_chain : forall n, val (gchain_of c n) = chain_at C (cn_key c) (N.to_nat (n - cn_first c)).
Proof. intro n. unfold gchain_of. induction (N.to_nat (n - cn_first c)) as [|i IH]; [reflexivity|]. rewrite giter_S. cbn [gvalue]. rewrite IH. reflexivity. Qed.
Lemma gvalue_seed : forall n, val (gseed_of c n) = c_hmac C (chain_at C (cn_key c) (N.to_nat (n - cn_first c))) [Byte.x01].
Proof. intro n. unfold gseed_of. cbn [gvalue]. rewrite gvalue_chain. reflexivity. Qed.
Lemma hkdf_48 : forall sec info, let q := c_hmac C (repeat Byte.x00 32) sec in
  rfc_hkdf C None sec info 48 = rfc_T C q info 1 ++ firstn 16 (rfc_T C q info 2).
Proof.
  intros sec info q. unfold rfc_hkdf. fold q. change ((48 + 31) / 32) with 2. cbn [seq map List.concat]. rewrite app_nil_r.
  pose proof (rfc_T_len C H q info 0) as L1. rewrite firstn_app, L1. rewrite (firstn_all2 (rfc_T C q info 1)) by lia. reflexivity.
Qed.
Lemma gvalue_keys : forall n mk, gkeys_at C (chain_at C (cn_key c) (N.to_nat (n - cn_first c))) n mk ->
  val (gcipher_of c n) = gk_cipher mk /\ val (giv_of c n) = gk_iv mk.
Proof.
  intros n mk (E & L1 & L2 & _). rewrite hkdf_48 in E. unfold gcipher_of, giv_of, gblock. cbn [gvalue]. rewrite !gvalue_block. cbn [gvalue]. rewrite gvalue_seed.
  set (q := c_hmac C (repeat Byte.x00 32) _) in *. set (t1 := rfc_T C q (str "WhisperGroup") 1) in *. set (t2 := rfc_T C q (str "WhisperGroup") 2) in *.
  assert (T1 : List.length t1 = 32) by apply (rfc_T_len C H q (str "WhisperGroup") 0).
  assert (E' : gk_iv mk ++ gk_cipher mk = firstn 16 t1 ++ skipn 16 t1 ++ firstn 16 t2) by (rewrite app_assoc, firstn_skipn; exact E).
  apply app_inj_len in E'; [destruct E' as [-> ->]; auto|]. rewrite firstn_length, T1, L2. reflexivity.
Qed.
Lemma same_chain : forall c' n, same_channel C c c' -> (cn_first c' <= n)%N ->
  chain_at C (cn_key c') (N.to_nat (n - cn_first c')) = chain_at C (cn_key c) (N.to_nat (n - cn_first c)).
Proof.
  clear H tx. intros c' n (_ & _ & _ & L & E) Ln. rewrite E, <- P_Member.chain_at_add. f_equal. lia.
Qed.
Lemma dist_keys : forall a d sysrnd rnd fs w m w', w_groups w a d = None -> run (new_sender_dist C a d sysrnd rnd) fs w = (Ok m, w') ->
  exists s r, w_groups w' a d = Some (s :: r) /\ gs_keys s = [].
Proof.
  intros a d sr rnd fs w m w' Nw E. destruct (dist_ok _ _ _ _ _ _ _ _ _ E) as [(s & r & Eg & _)|(Eg & chain & seed & rnd1 & kp & rest & Rc & Rf & Gk & -> & D)]; [congruence|].
  eexists. eexists. split; [apply group_set_same|reflexivity].
Qed.
Lemma gsends_keys : forall a d w l w', gsends C a d w l w' -> (exists s r, w_groups w a d = Some (s :: r) /\ gs_keys s = []) ->
  exists s r, w_groups w' a d = Some (s :: r) /\ gs_keys s = [].
Proof.
  intros a d w l w' G. induction G as [|w rnd pt fs m w1 l w2 E _ IH]; [auto|]. intros (s & r & Eg & Ek). apply IH.
  destruct (gencrypt_ok _ _ _ _ _ _ _ _ _ E) as (s' & r' & Eg' & _ & ->). rewrite Eg in Eg'. injection Eg' as <- <-.
  eexists. eexists. split; [apply group_set_same|]. exact Ek.
Qed.
Lemma theft_secrets : forall b s, group_theft C c b s -> group_secrets s = map val (gheld c b) /\
  (cn_first c <= mb_next b)%N /\ forall i, In i (mb_open b) -> (cn_first c <= i)%N.
Proof.
  intros b s T. destruct T as [a c' l w s Sc M Fo|a d sr rnd fs w m w1 l w2 s r O Nw E Ec G B Eg].
  - destruct (member_state C H c' a l w M) as (W & s' & F' & R). rewrite (follows_unique _ _ _ _ _ _ W Fo F') in *. clear s Fo.
    destruct R as (_ & _ & _ & R0 & _ & R1 & R2 & _ & R3). pose proof Sc as (_ & _ & _ & Lc & _). split; [|split; [lia|]].
    + unfold group_secrets, gheld. cbn [map]. rewrite gvalue_chain, R1. unfold ckey. rewrite same_chain by (auto; lia). f_equal.
      rewrite <- R2, !map_map. apply map_ext_in. intros k J. rewrite Forall_forall in R3. destruct (R3 k J) as [Lk ->]. unfold ckey.
      rewrite same_chain by (auto; lia). symmetry. apply gvalue_seed.
    + intros i J. rewrite <- R2 in J. apply in_map_iff in J. destruct J as (k & <- & J). rewrite Forall_forall in R3. destruct (R3 k J) as [Lk _]. lia.
  - destruct (dist_describes _ _ _ _ _ _ _ _ _ H O E) as (O1 & _ & Sp & _).
    destruct (gconsecutive _ _ _ _ _ _ G _ _ _ _ H O1 Sp B) as [_ (s1 & r1 & Eg1 & _ & _ & _ & Es)].
    rewrite Eg in Eg1. injection Eg1 as <- <-.
    destruct (gsends_keys _ _ _ _ _ G (dist_keys _ _ _ _ _ _ _ _ Nw E)) as (s1 & r1 & Eg1 & Ek). rewrite Eg in Eg1. injection Eg1 as <- <-.
    rewrite Ec. cbn [channel_of cn_first cn_key mb_next mb_open]. split; [|split; [lia|intros i []]].
    unfold group_secrets, gheld. rewrite Ek, Es. cbn [map mb_next mb_open]. f_equal. pose proof gvalue_chain as Q. rewrite Ec in Q. cbn [channel_of cn_first cn_key] in Q. unfold channel_of. rewrite Q.
    f_equal. lia.
Qed.
End Bytes.

Definition gtext_at (sent : list (N * bytes * senderkeymsg)) (n : N) : bytes :=
  match find (fun x => N.eqb (fst (fst x)) n) sent with Some x => snd (fst x) | None => [] end.
Lemma gtext_at_in : forall sent n pt m, NoDup (map (fun x => fst (fst x)) sent) -> In (n, pt, m) sent -> gtext_at sent n = pt.
Proof.
  induction sent as [|[[n' pt'] m'] l IH]; intros n pt m Nd J; [destruct J|]. cbn [map fst] in Nd. inversion Nd as [|? ? N1 N2]; subst.
  unfold gtext_at. cbn [find fst]. destruct (N.eqb_spec n' n) as [E|E].
  - cbn [fst snd]. destruct J as [J|J]; [congruence|]. exfalso. apply N1. rewrite E. apply in_map_iff. exists (n, pt, m). auto.
  - destruct J as [J|J]; [congruence|]. exact (IH n pt m N2 J).
Qed.
Theorem group_captured : forall C c sent (thefts : list (mailbox * gstate)), CryptoOk C ->
  (forall n pt m, In (n, pt, m) sent -> genuine C c n pt m) -> NoDup (map (fun x => fst (fst x)) sent) ->
  (forall b s, In (b, s) thefts -> group_theft C c b s) ->
  exists tx, (forall b s, In (b, s) thefts -> group_secrets s = map (gvalue C (cn_key c) tx) (gheld c b)) /\
    (forall n pt m, In (n, pt, m) sent -> tx n = pt /\ sm_body m = gvalue C (cn_key c) tx (gbody_of c n)) /\
    (forall n pt m, In (n, pt, m) sent -> (group_stolen c (map fst thefts) (map (fun x => fst (fst x)) sent) n <->
       exists b s, In (b, s) thefts /\ ((mb_next b <= n)%N \/ In n (mb_open b)))).
Proof.
  intros C c sent thefts H Gn Nd Th. exists (gtext_at sent). split; [|split].
  - intros b s J. apply (theft_secrets C H c (gtext_at sent) b s (Th b s J)).
  - intros n pt m J. pose proof (gtext_at_in _ _ _ _ Nd J) as Tx. split; [exact Tx|].
    destruct (Gn n pt m J) as (_ & _ & _ & _ & _ & _ & mk & K & E). destruct (gvalue_keys C H c (gtext_at sent) n mk K) as [V1 V2].
    unfold gbody_of. cbn [gvalue]. rewrite V1, V2, Tx, E. reflexivity.
  - intros n pt m J.
    assert (Bs : forall b, In b (map fst thefts) -> (cn_first c <= mb_next b)%N /\ forall i, In i (mb_open b) -> (cn_first c <= i)%N).
    { intros b Ib. apply in_map_iff in Ib. destruct Ib as ([b' s] & E & Ib). cbn [fst] in E. subst b'. exact (proj2 (theft_secrets C H c (fun _ => []) b s (Th b s Ib))). }
    assert (Sn : forall i, In i (map (fun x : N * bytes * senderkeymsg => fst (fst x)) sent) -> (cn_first c <= i)%N).
    { intros i Ii. apply in_map_iff in Ii. destruct Ii as ([[i' pt'] m'] & E & Ii). cbn [fst] in E. subst i'. exact (proj1 (Gn _ _ _ Ii)). }
    split.
    + intro D. apply (gsafe c _ _ n Bs Sn) in D. destruct D as (b & Ib & X). apply in_map_iff in Ib. destruct Ib as ([b' s] & E & Ib). cbn [fst] in E. subst b'. exists b, s. auto.
    + intros (b & s & Ib & X). apply (greads c _ _ n Bs); [apply in_map_iff; exists (n, pt, m); auto|]. exists b. split; [apply in_map_iff; exists (b, s); auto|exact X].
Qed.
(** What a member has read. *)
Theorem group_read_safe : forall C c a c' l w s sent n pt m, CryptoOk C -> same_channel C c c' -> member C a c' l w -> follows w a (cn_dist c') (cn_chain c') s ->
  (forall n pt m, In (n, pt, m) sent -> genuine C c n pt m) -> NoDup (map (fun x => fst (fst x)) sent) -> In (n, pt, m) sent ->
  accepted l n \/ (n < cn_first c')%N -> ~ group_stolen c [box c' l] (map (fun x => fst (fst x)) sent) n.
Proof.
  intros C c a c' l w s sent n pt m H Sc M Fo Gn Nd J A D.
  destruct (group_captured C c sent [(box c' l, s)] H Gn Nd) as (tx & _ & _ & Q).
  { intros b0 s0 [E|[]]. injection E as <- <-. exact (gt_member C c a c' l w s Sc M Fo). }
  apply (Q n pt m J) in D. destruct D as (b & s0 & [E|[]] & X). injection E as <- <-.
  destruct (member_state C H c' a l w M) as (W & s' & F' & R). destruct R as (_ & _ & _ & R0 & _ & R1 & R2 & _ & R3). rewrite Forall_forall in R3.
  destruct (member_binv C H c' a l w M) as [B1 B2 B3 B4 B5 B6]. destruct A as [A|A].
  - destruct X as [X|X]; [specialize (B4 n A); lia|exact (proj2 (B2 n X) A)].
  - destruct X as [X|X]; [lia|]. rewrite <- R2 in X. apply in_map_iff in X. destruct X as (k & <- & X). destruct (R3 k X) as [Lk _]. lia.
Qed.
(** What came before everybody who was robbed. *)
Theorem group_joiners : forall C c sent (thefts : list (mailbox * gstate)) n pt m, CryptoOk C ->
  (forall n pt m, In (n, pt, m) sent -> genuine C c n pt m) -> NoDup (map (fun x => fst (fst x)) sent) -> In (n, pt, m) sent ->
  (forall b s, In (b, s) thefts -> exists a c' l w, same_channel C c c' /\ member C a c' l w /\ follows w a (cn_dist c') (cn_chain c') s /\ b = box c' l /\ (n < cn_first c')%N) ->
  ~ group_stolen c (map fst thefts) (map (fun x => fst (fst x)) sent) n.
Proof.
  intros C c sent thefts n pt m H Gn Nd J Th D.
  destruct (group_captured C c sent thefts H Gn Nd) as (tx & _ & _ & Q).
  { intros b s Ib. destruct (Th b s Ib) as (a & c' & l & w & Sc & M & Fo & -> & _). exact (gt_member C c a c' l w s Sc M Fo). }
  apply (Q n pt m J) in D. destruct D as (b & s & Ib & X). destruct (Th b s Ib) as (a & c' & l & w & Sc & M & Fo & -> & L).
  destruct (member_state C H c' a l w M) as (W & s' & F' & R). destruct R as (_ & _ & _ & R0 & _ & R1 & R2 & _ & R3). rewrite Forall_forall in R3.
  destruct X as [X|X]; [lia|]. rewrite <- R2 in X. apply in_map_iff in X. destruct X as (k & <- & X). destruct (R3 k X) as [Lk _]. lia.
Qed.
(** What the sender has sent. *)
Theorem group_sent_safe : forall C a d sysrnd rnd fs w m w1 l w2 s r sent n pt x, CryptoOk C -> own_device C w -> w_groups w a d = None ->
  run (new_sender_dist C a d sysrnd rnd) fs w = (Ok m, w1) -> gsends C a d w1 l w2 ->
  (dm_iter m + N.of_nat (List.length l) < 2 ^ 32)%N -> w_groups w2 a d = Some (s :: r) ->
  (forall n pt x, In (n, pt, x) sent -> genuine C (channel_of m) n pt x) -> NoDup (map (fun x => fst (fst x)) sent) -> In (n, pt, x) sent ->
  (n < dm_iter m + N.of_nat (List.length l))%N ->
  let b := mkMailbox (dm_iter m + N.of_nat (List.length l)) [] in
  group_theft C (channel_of m) b s /\ ~ group_stolen (channel_of m) [b] (map (fun x => fst (fst x)) sent) n.
Proof.
  intros C a d sr rnd fs w m w1 l w2 s r sent n pt x H O Nw E G B Eg Gn Nd J L b.
  pose proof (gt_sender C (channel_of m) a d sr rnd fs w m w1 l w2 s r O Nw E eq_refl G B Eg) as T.
  fold b in T. split; [exact T|]. intro D. destruct (group_captured C (channel_of m) sent [(b, s)] H Gn Nd) as (tx & _ & _ & Q).
  { intros b0 s0 [E0|[]]. injection E0 as <- <-. exact T. }
  apply (Q n pt x J) in D. destruct D as (b0 & s0 & [E0|[]] & X). injection E0 as <- <-. unfold b in X. cbn [mb_next mb_open] in X. destruct X as [X|[]]. lia.
Qed.
Lemma gsends_own : forall C a d w l w', CryptoOk C -> own_device C w -> gsends C a d w l w' -> own_device C w'.
Proof.
  intros C a d w l w' H O G. induction G as [|w rnd pt fs m w1 l w2 E _ IH]; [exact O|]. apply IH.
  replace w1 with (snd (run (gencrypt C a d rnd pt) fs w)) by (rewrite E; reflexivity). apply gencrypt_dev; auto.
Qed.
(** A later distribution message. *)
Theorem later_dist : forall C a d sysrnd rnd fs w m w1 l w2 sysrnd' rnd' fs' m' w3, CryptoOk C -> own_device C w ->
  run (new_sender_dist C a d sysrnd rnd) fs w = (Ok m, w1) -> gsends C a d w1 l w2 ->
  (dm_iter m + N.of_nat (List.length l) < 2 ^ 32)%N -> run (new_sender_dist C a d sysrnd' rnd') fs' w2 = (Ok m', w3) ->
  same_channel C (channel_of m) (channel_of m') /\ dm_iter m' = (dm_iter m + N.of_nat (List.length l))%N.
Proof.
  intros C a d sr rnd fs w m w1 l w2 sr' rnd' fs' m' w3 H O E G B E'.
  destruct (dist_describes _ _ _ _ _ _ _ _ _ H O E) as (O1 & (_ & T1 & _) & Sp & _).
  destruct (gconsecutive _ _ _ _ _ _ G _ _ _ _ H O1 Sp B) as [_ (s1 & r1 & Eg & E1 & E2 & E3 & E4)].
  assert (O2 : own_device C w2) by exact (gsends_own _ _ _ _ _ _ H O1 G).
  destruct (dist_describes _ _ _ _ _ _ _ _ _ H O2 E') as (_ & (_ & T2 & _) & Sp2 & _ & Same).
  rewrite (Same ltac:(congruence)) in Sp2. destruct Sp2 as (s2 & r2 & Eg2 & F1 & F2 & F3 & F4). rewrite Eg in Eg2. injection Eg2 as <- <-.
  assert (Q : dm_iter m' = (dm_iter m + N.of_nat (List.length l))%N) by congruence. split; [|exact Q].
  unfold same_channel, channel_of. cbn [cn_dist cn_chain cn_signing cn_first cn_key]. rewrite Q. split; [congruence|]. split; [congruence|].
  split; [rewrite E2 in F2; exact (f_equal (fun y => match y with _ :: t => t | [] => [] end) (eq_sym F2))|]. split; [lia|].
  rewrite <- F4, E4. f_equal. lia.
Qed.
