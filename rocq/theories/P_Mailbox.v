(** The abstract receiver. *)
From Verif Require Import M_Base M_Crypto M_Message M_Store M_Group S_Crypto S_GroupMsg P_Base P_Group P_Member.
From Coq Require Import Sorting.Sorted ZifyBool ZifyNat ZifyN.
Local Open Scope N_scope.


Lemma sorted_app : forall l k, StronglySorted N.lt l -> StronglySorted N.lt k -> (forall x y, In x l -> In y k -> x < y) ->
  StronglySorted N.lt (l ++ k).
Proof.
  intros l k S1 S2 D. induction S1 as [|x l S1 IH F]; [exact S2|]. cbn [app]. constructor.
  - apply IH. intros y z J1 J2. apply D; [right; exact J1|exact J2].
  - apply Forall_app. split; [exact F|]. apply Forall_forall. intros y J. apply D; [left; reflexivity|exact J].
Qed.
Lemma sorted_count : forall n x, StronglySorted N.lt (count_up x n).
Proof.
  induction n as [|n IH]; intro x; cbn [count_up]; constructor; [apply IH|]. apply Forall_forall. intros y J. apply count_up_in in J. lia.
Qed.
Lemma sorted_filter : forall f l, StronglySorted N.lt l -> StronglySorted N.lt (filter f l).
Proof.
  intros f l S1. induction S1 as [|x l S1 IH F]; cbn [filter]; [constructor|]. destruct (f x); [|exact IH]. constructor; [exact IH|].
  apply forall_filter. exact F.
Qed.
Lemma sorted_skipn : forall k l, StronglySorted N.lt l -> StronglySorted N.lt (skipn k l).
Proof.
  induction k as [|k IH]; intros l S1; [exact S1|]. destruct S1; cbn [skipn]; [constructor|auto].
Qed.
Lemma sorted_nodup : forall l, StronglySorted N.lt l -> NoDup l.
Proof.
  intros l S1. induction S1 as [|x l S1 IH F]; constructor; [|exact IH]. intro J. rewrite Forall_forall in F. specialize (F x J). lia.
Qed.
(** What [skipn] drops is below everything it keeps. *)
Lemma sorted_dropped : forall k l x, StronglySorted N.lt l -> In x l -> ~ In x (skipn k l) -> forall y, In y (skipn k l) -> x < y.
Proof.
  intros k l x S1. revert k. induction S1 as [|z l S1 IH F]; intros k J Nj y Jy; [destruct J|].
  destruct k as [|k]; [contradiction|]. cbn [skipn] in *. destruct J as [->|J].
  - rewrite Forall_forall in F. apply F. eapply skipn_incl; eauto.
  - eapply IH; eauto.
Qed.
Lemma between_length : forall l x n, NoDup l -> (forall y, In y l -> x < y < n) -> N.of_nat (List.length l) <= n - x - 1.
Proof.
  intros l x n ND B. assert (L : (List.length l <= List.length (count_up (x + 1) (N.to_nat (n - x - 1))))%nat).
  { apply NoDup_incl_length; [exact ND|]. intros y J. apply count_up_in. specialize (B y J). lia. }
  assert (Lc : forall k z, List.length (count_up z k) = k) by (induction k; intro z; cbn; auto).
  rewrite Lc in L. lia.
Qed.

Record binv (first : N) (fresh : N -> Prop) (b : mailbox) : Prop := {
  b_sorted : StronglySorted N.lt (mb_open b);
  b_range : forall x, In x (mb_open b) -> first <= x < mb_next b /\ ~ fresh x;
  b_first : first <= mb_next b;
  b_fresh : forall x, fresh x -> x < mb_next b;
  b_all : forall x, first <= x < mb_next b -> fresh x \/ In x (mb_open b) \/ x + 2002 <= mb_next b;
  b_next : mb_next b = first \/ fresh (mb_next b - 1)
}.
Lemma binv_init : forall first, binv first (fun _ => False) (mkMailbox first []).
Proof. intro f. split; cbn; try tauto; try constructor; try lia. Qed.
Lemma binv_ext : forall first P Q b, (forall x, P x <-> Q x) -> binv first P b -> binv first Q b.
Proof.
  intros f P Q b E [B1 B2 B3 B4 B5 B6]. split; auto.
  - intros x J. rewrite <- E. auto.
  - intros x J. apply B4. apply E. exact J.
  - intros x J. rewrite <- E. auto.
  - rewrite <- E. auto.
Qed.
Lemma binv_step : forall first P b n, binv first P b -> first <= n ->
  binv first (fun x => P x \/ (x = n /\ fst (arrive b n) = Fresh)) (snd (arrive b n)).
Proof.
  intros f P b n [B1 B2 B3 B4 B5 B6] L. unfold arrive. destruct (N.ltb_spec n (mb_next b)) as [L1|L1].
  - destruct (existsb (N.eqb n) (mb_open b)) eqn:J; cbn [fst snd].
    + split; cbn [mb_next mb_open].
      * apply sorted_filter. exact B1.
      * intros x Jx. apply filter_In in Jx. destruct Jx as [Jx Nx]. destruct (N.eqb_spec x n); [discriminate|]. split; [apply B2; exact Jx|].
        intros [Q|[Q _]]; [apply (B2 x Jx); exact Q|contradiction].
      * exact B3.
      * intros x [Q|[-> _]]; auto.
      * intros x R. destruct (B5 x R) as [Q|[Q|Q]]; auto. destruct (N.eqb_spec x n) as [->|Nx]; auto. right. left. apply filter_In. split; [exact Q|].
        apply Bool.negb_true_iff. apply N.eqb_neq. exact Nx.
      * destruct B6 as [->|Q]; auto.
    + eapply binv_ext; [|split; eassumption]. intro x. split; [auto|]. intros [Q|[_ Q]]; [exact Q|discriminate].
  - destruct (N.ltb_spec (mb_next b + 25000) n) as [L2|L2]; cbn [fst snd].
    + eapply binv_ext; [|split; eassumption]. intro x. split; [auto|]. intros [Q|[_ Q]]; [exact Q|discriminate].
    + set (l := mb_open b ++ count_up (mb_next b) (N.to_nat (n - mb_next b))).
      assert (Sl : StronglySorted N.lt l).
      { apply sorted_app; [exact B1|apply sorted_count|]. intros x y J1 J2. apply B2 in J1. apply count_up_in in J2. lia. }
      assert (Rl : forall x, In x l -> f <= x < n /\ ~ P x).
      { intros x J. apply in_app_or in J. destruct J as [J|J].
        - destruct (B2 x J). split; [lia|assumption].
        - apply count_up_in in J. split; [lia|]. intro Q. apply B4 in Q. lia. }
      split; cbn [mb_next mb_open].
      * apply sorted_skipn. exact Sl.
      * intros x J. apply skipn_incl in J. apply Rl in J. split; [lia|]. intros [Q|[Q _]]; [tauto|lia].
      * lia.
      * intros x [Q|[-> _]]; [apply B4 in Q; lia|lia].
      * intros x R. destruct (N.eq_dec x n) as [->|Nx]; [left; right; auto|].
        assert (Q : P x \/ In x l \/ x + 2002 <= mb_next b).
        { destruct (N.ltb_spec x (mb_next b)) as [Lx|Lx].
          - destruct (B5 x ltac:(lia)) as [Q|[Q|Q]]; auto. right. left. apply in_or_app. auto.
          - right. left. apply in_or_app. right. apply count_up_in. lia. }
        destruct Q as [Q|[Q|Q]]; [auto| |right; right; lia].
        destruct (in_dec N.eq_dec x (skipn (List.length l - 2000) l)) as [J|J]; [auto|]. right. right.
        assert (B : N.of_nat (List.length (skipn (List.length l - 2000) l)) <= n - x - 1).
        { apply between_length; [apply sorted_nodup, sorted_skipn, Sl|]. intros y Jy. split; [eapply sorted_dropped; eauto|].
          apply skipn_incl in Jy. apply Rl in Jy. lia. }
        rewrite skipn_length in B. destruct (Nat.leb_spec (List.length l) 2000) as [Ll|Ll].
        -- exfalso. apply J. replace (List.length l - 2000)%nat with O by lia. exact Q.
        -- lia.
      * right. right. split; [lia|reflexivity].
Qed.

Section History.
Variable C : Crypto.
Variable H : CryptoOk C.
Variable c : channel.
Variable a : addr.

Lemma member_first : forall l w, member C a c l w -> forall n pt r, In (n, pt, r) l -> cn_first c <= n.
Proof.
  intros l w M. induction M as [w m w' W Wm T New E|l w n pt m r w' M IH G B E|l w w' M IH W' K]; intros n0 pt0 r0 J.
  - destruct J.
  - apply in_app_or in J. destruct J as [J|[J|[]]]; [eapply IH; eauto|]. injection J as <- <- <-. apply G.
  - eapply IH; eauto.
Qed.
Lemma member_binv : forall l w, member C a c l w -> binv (cn_first c) (accepted l) (box c l).
Proof.
  intros l w M. induction M as [w m w' W Wm T New E|l w n pt m r w' M IH G B E|l w w' M IH W' K].
  - eapply binv_ext; [|apply binv_init]. intro x. split; [tauto|]. intros (pt & y & []).
  - pose proof (member_answer C H c a l w n pt m r w' M G B E) as An. rewrite box_snoc.
    eapply binv_ext; [|apply binv_step; [exact IH|apply G]]. intro x. split.
    + intros [(p & y & J)|[-> Q]]; [exists p, y; apply in_or_app; auto|].
      rewrite Q in An. cbn [answer] in An. exists pt, pt. apply in_or_app. right. left. rewrite An. reflexivity.
    + intros (p & y & J). apply in_app_or in J. destruct J as [J|[J|[]]]; [left; exists p, y; exact J|]. right.
      injection J as <- <- ->. split; [reflexivity|]. destruct (fst (arrive (box c l) n)); [reflexivity|discriminate..].
  - exact IH.
Qed.

Lemma accepted_dec : forall l n, accepted l n \/ ~ accepted l n.
Proof.
  intros l n. unfold accepted. induction l as [|[[x p] r] l IH]; [right; intros (? & ? & [])|].
  destruct IH as [(p' & y & J)|Nj]; [left; exists p', y; right; exact J|].
  destruct (N.eq_dec x n) as [->|Nx]; [|right; intros (p' & y & [Q|Q]); [congruence|apply Nj; eauto]].
  destruct r as [y| |]; [left; exists p, y; left; reflexivity|right; intros (p' & y & [Q|Q]); [congruence|apply Nj; eauto]..].
Qed.

Lemma delivered_once : forall l w n pt m r w', member C a c l w -> genuine C c n pt m -> n + 1 < 4294967296 ->
  run0 (gdecrypt C a m) w = (r, w') ->
  (accepted l n -> r = Err EDuplicate) /\
  (~ accepted l n -> (n <= cn_first c + 25000 \/ exists n', accepted l n' /\ n <= n' + 25001) ->
   (forall n', accepted l n' -> n' <= n + 2000) -> r = Ok pt).
Proof.
  intros l w n pt m r w' M G B E. pose proof (member_answer C H c a l w n pt m r w' M G B E) as An.
  destruct (member_binv l w M) as [B1 B2 B3 B4 B5 B6]. pose proof (proj1 G) as Lf. unfold arrive in An. split.
  - intro Q. pose proof (B4 n Q) as L. rewrite (proj2 (N.ltb_lt _ _) L) in An.
    destruct (existsb (N.eqb n) (mb_open (box c l))) eqn:J; [|exact An]. exfalso. apply existsb_exists in J. destruct J as (y & J & Ey).
    apply N.eqb_eq in Ey. subst y. apply B2 in J. tauto.
  - intros Na Ahead Behind. destruct (N.ltb_spec n (mb_next (box c l))) as [L|L].
    + assert (J : In n (mb_open (box c l))).
      { destruct (B5 n ltac:(lia)) as [Q|[Q|Q]]; [contradiction|exact Q|exfalso]. destruct B6 as [Q6|Q6]; [lia|].
        apply Behind in Q6. lia. }
      assert (Q : existsb (N.eqb n) (mb_open (box c l)) = true) by (apply existsb_exists; exists n; split; [exact J|apply N.eqb_refl]).
      rewrite Q in An. exact An.
    + destruct (N.ltb_spec (mb_next (box c l) + 25000) n) as [L2|L2]; [|exact An]. exfalso.
      destruct Ahead as [Q|(n' & Q & Ln)]; [lia|]. apply B4 in Q. lia.
Qed.
End History.
(** Arrivals in order: all are delivered. *)
Lemma arrivals_in_order : forall k n, arrivals (mkMailbox n []) (count_up n k) = mkMailbox (n + N.of_nat k) [].
Proof.
  induction k as [|k IH]; intro n; [cbn [count_up arrivals]; f_equal; lia|]. cbn [count_up arrivals]. unfold arrive at 1. cbn [mb_next mb_open].
  rewrite N.ltb_irrefl. replace (n + 25000 <? n) with false by (symmetry; apply N.ltb_ge; lia). rewrite N.sub_diag. cbn [N.to_nat count_up app List.length skipn Nat.sub snd].
  rewrite IH. f_equal. lia.
Qed.
Lemma count_up_split : forall k n l1 x l2, count_up n k = l1 ++ x :: l2 -> l1 = count_up n (List.length l1) /\ x = n + N.of_nat (List.length l1).
Proof.
  induction k as [|k IH]; intros n l1 x l2 E; cbn [count_up] in E; [destruct l1; discriminate|]. destruct l1 as [|y l1]; cbn [app] in E; injection E as <- E.
  - split; [reflexivity|]. cbn. lia.
  - destruct (IH _ _ _ _ E) as [E1 E2]. cbn [List.length count_up]. rewrite <- E1. split; [reflexivity|]. lia.
Qed.
Lemma read_in_order : forall C a c l w, CryptoOk C -> member C a c l w -> map (fun x => fst (fst x)) l = count_up (cn_first c) (List.length l) ->
  forall n pt r, In (n, pt, r) l -> r = Ok pt.
Proof.
  intros C a c l w H M E n pt r J. apply in_split in J. destruct J as (l1 & l2 & ->).
  pose proof (member_recorded C H c a _ _ M l1 n pt r l2 eq_refl) as R. rewrite map_app in E. cbn [map fst] in E.
  symmetry in E. destruct (count_up_split _ _ _ _ _ E) as [E1 E2]. rewrite map_length in E1, E2. unfold box in R. rewrite E1, arrivals_in_order in R.
  rewrite <- E2 in R. unfold arrive in R. cbn [mb_next] in R. rewrite N.ltb_irrefl in R. replace (n + 25000 <? n) with false in R by (symmetry; apply N.ltb_ge; lia). exact R.
Qed.
