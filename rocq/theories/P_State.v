From Verif Require Import M_Base M_Crypto M_Curve M_Proto M_Ratchet M_State S_Message S_State.
From Verif Require Import P_Base P_Proto.
From Coq Require Import ZifyBool ZifyNat ZifyN.
Local Open Scope nat_scope.

Definition pre_wf (f : field) : Prop :=
  (1 <= fst f <= 536870911)%N /\ match snd f with WLen _ => True | w => wf_wval w end.

Lemma enc_field_in : forall fs f, In f fs -> List.length (enc_field f) <= List.length (enc_fields fs).
Proof.
  induction fs as [|g fs IH]; intros f [].
  - subst. unfold enc_fields. cbn [map List.concat]. rewrite app_length. lia.
  - apply IH in H. unfold enc_fields in *. cbn [map List.concat]. rewrite app_length. lia.
Qed.
Lemma wlen_in : forall fs n b, In (n, WLen b) fs -> List.length b <= List.length (enc_fields fs).
Proof.
  intros fs n b H. apply enc_field_in in H. unfold enc_field in H. cbn [snd enc_wval] in H.
  rewrite !app_length in H. lia.
Qed.

Definition small (b : bytes) : Prop := (N.of_nat (List.length b) < two64)%N.

Lemma wf_of_pre : forall fs, Forall pre_wf fs -> small (enc_fields fs) -> Forall wf_field fs.
Proof.
  intros fs H S. apply Forall_forall. intros [n w] HI.
  rewrite Forall_forall in H. specialize (H _ HI) as [H1 H2]. split; auto.
  cbn [snd] in *. destruct w; auto. cbn [wf_wval]. apply wlen_in in HI. unfold small in S. lia.
Qed.

Lemma pre_u32 : forall m v, (1 <= m <= 536870911)%N -> go_u32 v -> Forall pre_wf (p3_u32 m v).
Proof. intros. unfold p3_u32. destruct (v =? 0)%N; repeat constructor; cbn; auto; try lia. unfold go_u32, two64 in *. lia. Qed.
Lemma pre_bytes : forall m v, (1 <= m <= 536870911)%N -> Forall pre_wf (p3_bytes m v).
Proof. intros. destruct v; repeat constructor; cbn; auto; lia. Qed.
Lemma pre_int32 : forall m v, (1 <= m <= 536870911)%N -> Forall pre_wf (p3_int32 m v).
Proof.
  intros. unfold p3_int32. destruct (v =? 0)%Z; repeat constructor; cbn; auto; try lia.
  unfold int32_varint, two64. pose proof (Z.mod_pos_bound v 18446744073709551616). lia.
Qed.
Lemma pre_sub : forall m o, (1 <= m <= 536870911)%N -> Forall pre_wf (p_sub m o).
Proof. intros. destruct o; repeat constructor; cbn; auto; lia. Qed.
Lemma pre_subs : forall m l, (1 <= m <= 536870911)%N -> Forall pre_wf (p_subs m l).
Proof. intros. unfold p_subs. apply Forall_forall. intros f H1. apply in_map_iff in H1 as (x & <- & _). split; cbn; auto. Qed.

Lemma get_u32_0 : forall v, go_u32 v -> or0 (match (if negb (v =? 0) then Some v else None)%N with Some n => Some (u32 n) | None => None end) = v.
Proof. intros v H. destruct (N.eqb_spec v 0); cbn [negb or0]; [subst; auto|]. apply u32_small. exact H. Qed.

Lemma opt_eta : forall {A} (o : option A), match o with Some v => Some v | None => None end = o.
Proof. destruct o; reflexivity. Qed.

Ltac getters := rewrite ?get_varint_app, ?get_varint_p3_u32, ?get_varint_p3_bytes, ?get_varint_p3_int32,
  ?get_varint_p_sub, ?get_varint_p_subs,
  ?get_bytes_app, ?get_bytes_p3_u32, ?get_bytes_p3_int32, ?get_bytes_p3_bytes;
  rewrite ?get_bytes_p_sub_neq, ?get_bytes_p_subs_neq by reflexivity;
  cbn [N.eqb Pos.eqb andb].

Lemma chainkey_rt : forall k, go_u32 (pck_index k) ->
  Forall pre_wf (pchainkey_fields k) /\ pchainkey_of (pchainkey_fields k) = k.
Proof.
  intros [i k] H. cbn [pck_index] in H. split.
  - unfold pchainkey_fields. rewrite Forall_app. split; [apply pre_u32|apply pre_bytes]; auto; lia.
  - unfold pchainkey_of, pchainkey_fields, get_u32. cbn [pck_index pck_key]. getters.
    rewrite get_u32_0 by auto. f_equal. destruct k; reflexivity.
Qed.

Lemma msgkey_rt : forall k, go_u32 (pmk_index k) ->
  Forall pre_wf (pmsgkey_fields k) /\ pmsgkey_of (pmsgkey_fields k) = k.
Proof.
  intros [i c m v] H. cbn [pmk_index] in H. split.
  - unfold pmsgkey_fields. rewrite !Forall_app. repeat split; try apply pre_u32; try apply pre_bytes; auto; lia.
  - unfold pmsgkey_of, pmsgkey_fields, get_u32. cbn [pmk_index pmk_cipher pmk_mac pmk_iv]. getters.
    rewrite get_u32_0 by auto. f_equal; [destruct c, m, v; reflexivity..].
Qed.

Lemma pending_rt : forall p, go_u32 (pp_prekey p) -> go_i32 (pp_signed p) ->
  Forall pre_wf (ppending_fields p) /\ ppending_of (ppending_fields p) = p.
Proof.
  intros [i b z] H1 H2. cbn [pp_prekey pp_signed] in *. split.
  - unfold ppending_fields. rewrite !Forall_app. repeat split; try apply pre_u32; try apply pre_bytes; try apply pre_int32; auto; lia.
  - unfold ppending_of, ppending_fields, get_u32. cbn [pp_prekey pp_signed pp_base]. getters.
    rewrite get_u32_0 by auto. f_equal.
    + destruct b; reflexivity.
    + destruct (Z.eqb_spec z 0); cbn [negb or0]; [subst; reflexivity|].
      apply int32_varint_roundtrip. exact H2.
Qed.

Lemma small_sub : forall fs n b, In (n, WLen b) fs -> small (enc_fields fs) -> small b.
Proof. intros fs n b H S. apply wlen_in in H. unfold small in *. lia. Qed.

Lemma map_id_in : forall {A} (f : A -> A) l, (forall x, In x l -> f x = x) -> map f l = l.
Proof. induction l as [|x l IH]; intro H; cbn [map]; [auto|]. rewrite H by (left; auto). f_equal. apply IH. intros; apply H; right; auto. Qed.

Lemma get_sub_one : forall fs, Forall wf_field fs ->
  match [enc_fields fs] with [] => Some None | bs => match dec_each bs with Some l => Some (Some (List.concat l)) | None => None end end = Some (Some fs).
Proof. intros fs H. cbn [dec_each]. rewrite dec_enc_fields by auto. cbn [List.concat]. rewrite app_nil_r. reflexivity. Qed.

Lemma pchain_rt : forall c, go_chain c -> small (enc_fields (pchain_fields c)) ->
  Forall pre_wf (pchain_fields c) /\ pchain_of (pchain_fields c) = Some c.
Proof.
  intros [r p k ms] [H1 H2] SM. cbn [pc_key pc_msgkeys] in *.
  assert (PW : Forall pre_wf (pchain_fields (mkPChain r p k ms))).
  { unfold pchain_fields. rewrite !Forall_app. repeat split; try apply pre_bytes; try apply pre_sub; try apply pre_subs; lia. }
  split; auto.
  unfold pchain_of, get_sub, get_subs. unfold pchain_fields. cbn [pc_key pc_msgkeys pc_ratchet pc_ratchet_priv].
  rewrite !get_all_app, ?get_all_p_sub, ?get_all_p_subs.
  rewrite !get_all_p3_bytes_neq by reflexivity. cbn [N.eqb Pos.eqb app]. rewrite app_nil_r.
  assert (MK : dec_each (map enc_fields (map pmsgkey_fields ms)) = Some (map pmsgkey_fields ms)).
  { apply dec_each_enc. apply Forall_forall. intros fs HI. apply in_map_iff in HI as (x & <- & HI).
    apply wf_of_pre; [apply msgkey_rt; auto|].
    eapply small_sub; [|exact SM]. unfold pchain_fields. cbn [pc_msgkeys]. rewrite !in_app_iff. right; right; right.
    unfold p_subs. apply in_map_iff. exists (pmsgkey_fields x). split; [reflexivity|]. apply in_map; auto. }
  rewrite MK.
  assert (CK : match (match option_map pchainkey_fields k with Some fs => [enc_fields fs] | None => [] end) with
    [] => Some None | b :: l => match dec_each (b :: l) with Some l0 => Some (Some (List.concat l0)) | None => None end end
    = Some (option_map pchainkey_fields k)).
  { destruct k as [k|]; cbn [option_map]; [|reflexivity]. apply get_sub_one.
    apply wf_of_pre; [apply chainkey_rt; auto|].
    eapply small_sub; [|exact SM]. unfold pchain_fields. cbn [pc_key option_map]. rewrite !in_app_iff. right; right; left.
    left. reflexivity. }
  rewrite CK. f_equal. getters. f_equal.
  - destruct r; reflexivity.
  - destruct p; reflexivity.
  - destruct k as [k|]; [|reflexivity]. cbn [option_map]. f_equal. apply chainkey_rt; auto.
  - rewrite map_map. apply map_id_in. intros x HI. apply msgkey_rt; auto.
Qed.

Lemma map_opt_rt : forall {A B} (f : A -> B) (g : B -> option A) l,
  (forall x, In x l -> g (f x) = Some x) -> map_opt g (map f l) = Some l.
Proof.
  induction l as [|x l IH]; intro H; cbn [map map_opt]; [auto|].
  rewrite H by (left; auto). rewrite IH by (intros; apply H; right; auto). reflexivity.
Qed.

Lemma state_fields_rt : forall s, go_state s -> small (state_bytes s) ->
  Forall pre_wf (state_fields s) /\ state_of (state_fields s) = Some s.
Proof.
  intros s (G1 & G2 & G3 & G4 & G5 & G6 & G7) SM. unfold state_bytes in SM.
  destruct s as [ver loc rem root prev snd rcv pnd rreg lreg ab].
  cbn [ss_version ss_local ss_remote ss_root ss_prevctr ss_sender ss_receivers ss_pending ss_remote_reg ss_local_reg ss_alice_base] in *.
  set (s := mkState _ _ _ _ _ _ _ _ _ _ _) in *.
  assert (PW : Forall pre_wf (state_fields s)).
  { unfold state_fields. rewrite !Forall_app.
    repeat split; try (apply pre_u32; [lia|assumption]); try (apply pre_bytes; lia); try (apply pre_sub; lia); try (apply pre_subs; lia). }
  assert (IN6 : forall c, snd = Some c -> small (enc_fields (pchain_fields c))).
  { intros c ->. eapply small_sub; [|exact SM]. unfold state_fields. rewrite !in_app_iff. do 5 right. left. left. reflexivity. }
  assert (IN7 : forall c, In c rcv -> small (enc_fields (pchain_fields c))).
  { intros c HI. eapply small_sub; [|exact SM]. unfold state_fields. rewrite !in_app_iff. do 6 right. left.
    apply in_map_iff. exists (pchain_fields c). split; [reflexivity|]. apply in_map. exact HI. }
  assert (IN9 : forall p, pnd = Some p -> small (enc_fields (ppending_fields p))).
  { intros p ->. eapply small_sub; [|exact SM]. unfold state_fields. rewrite !in_app_iff. do 7 right. left. left. reflexivity. }
  split; auto.
  unfold state_of, get_sub, get_subs, state_fields.
  unfold s.
  cbn [ss_version ss_local ss_remote ss_root ss_prevctr ss_sender ss_receivers ss_pending ss_remote_reg ss_local_reg ss_alice_base].
  rewrite !get_all_app, !get_all_p_sub, !get_all_p_subs, !get_all_p3_u32.
  rewrite !get_all_p3_bytes_neq by reflexivity. cbn [N.eqb Pos.eqb app]. rewrite !app_nil_r.
  assert (S6 : match (match option_map pchain_fields snd with Some fs => [enc_fields fs] | None => [] end) with
    [] => Some None | b :: l => match dec_each (b :: l) with Some l0 => Some (Some (List.concat l0)) | None => None end end
    = Some (option_map pchain_fields snd)).
  { destruct snd as [c|]; cbn [option_map]; [|reflexivity]. apply get_sub_one.
    apply wf_of_pre; [apply pchain_rt; auto|auto]. }
  assert (S9 : match (match option_map ppending_fields pnd with Some fs => [enc_fields fs] | None => [] end) with
    [] => Some None | b :: l => match dec_each (b :: l) with Some l0 => Some (Some (List.concat l0)) | None => None end end
    = Some (option_map ppending_fields pnd)).
  { destruct pnd as [c|]; cbn [option_map]; [|reflexivity]. apply get_sub_one.
    destruct (G7 c eq_refl). apply wf_of_pre; [apply pending_rt; auto|auto]. }
  assert (S7 : dec_each (map enc_fields (map pchain_fields rcv)) = Some (map pchain_fields rcv)).
  { apply dec_each_enc. apply Forall_forall. intros fs HI. apply in_map_iff in HI as (x & <- & HI).
    apply wf_of_pre; [apply pchain_rt; auto|auto]. }
  rewrite S6, S7, S9.
  assert (SO : sub_opt pchain_of (option_map pchain_fields snd) = Some snd).
  { destruct snd as [c|]; [|reflexivity]. cbn [option_map sub_opt].
    destruct (pchain_rt c (G5 c eq_refl) (IN6 c eq_refl)) as [_ ->]. reflexivity. }
  rewrite SO, map_opt_rt by (intros x HI; apply pchain_rt; auto).
  f_equal. unfold get_u32. getters.
  cbn [ss_version ss_local ss_remote ss_root ss_prevctr ss_sender ss_receivers ss_pending ss_remote_reg ss_local_reg ss_alice_base].
  rewrite !opt_eta, !ornil_bytes, !get_u32_0 by auto.
  f_equal. destruct pnd as [p|]; [|reflexivity]. cbn [option_map]. f_equal. destruct (G7 p eq_refl). apply pending_rt; auto.
Qed.

Lemma state_roundtrip : forall s, go_state s -> go_slice (state_bytes s) ->
  state_parse (state_bytes s) = Ok s.
Proof.
  intros s G S.
  assert (SM : small (state_bytes s)) by (unfold go_slice, small, two64 in *; lia).
  destruct (state_fields_rt s G SM) as [PW E].
  unfold state_parse. unfold state_bytes at 1. rewrite dec_enc_fields by (apply wf_of_pre; auto).
  rewrite E. reflexivity.
Qed.

Lemma state_parse_no_panic : forall b, state_parse b <> Panic.
Proof. intro b. unfold state_parse. destruct (dec_fields b) as [fs|]; [destruct (state_of fs)|]; discriminate. Qed.
