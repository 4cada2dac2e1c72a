(** Group records. *)
From Verif Require Import M_Base M_Crypto M_Aes M_Curve M_Uuid M_Message M_Ratchet M_State M_Store M_Session M_Group
  S_Crypto S_Message S_State S_Shape S_Ratchet S_Session S_Group S_Aes S_Api
  P_Base P_Proto P_Curve P_State P_Shape P_Ratchet P_Message P_Aes P_Chain P_Decrypt P_Init P_Record.
From Coq Require Import ZifyBool ZifyNat ZifyN.
Local Open Scope nat_scope.

Lemma gs_public_wf : forall s, wf_gstate s -> exists k, List.length k = 32 /\ gs_pub s = pub_bytes k /\ gs_public s = Ok k.
Proof. intros s (_ & _ & _ & _ & K & _). apply key33_parse in K. exact K. Qed.

(** RemoveState takes out one state, the first with that chain id and key. *)
Lemma gr_remove_spec : forall chain key r o r', gr_remove chain key r = (o, r') ->
  match o with
  | Some s => exists a b, r = a ++ s :: b /\ r' = a ++ b /\ gs_chain s = chain /\ gs_public s = Ok key
  | None => r' = r /\ forall s, In s r -> gs_chain s = chain -> gs_public s <> Ok key
  end.
Proof.
  intros chain key r. induction r as [|s r IH]; intros o r' E; cbn [gr_remove] in E.
  - injection E as <- <-. split; [reflexivity|]. intros s [].
  - destruct (match gs_public s with Ok k => (gs_chain s =? chain)%N && pub_equal key k | _ => false end) eqn:T.
    + injection E as <- <-. exists [], r. split; [reflexivity|]. split; [reflexivity|].
      destruct (gs_public s) as [k| |] eqn:Ep; [|discriminate..]. apply andb_prop in T. destruct T as [T1 T2].
      apply N.eqb_eq in T1. apply pub_equal_iff, pub_bytes_inj in T2. subst k. auto.
    + destruct (gr_remove chain key r) as [o1 r1] eqn:E1. injection E as <- <-. specialize (IH o1 r1 eq_refl).
      destruct o1 as [x|].
      * destruct IH as (a & b & -> & -> & I). exists (s :: a), b. auto.
      * destruct IH as [-> IH]. split; [reflexivity|]. intros x [<-|I] Ec Ep; [|eapply IH; eauto].
        rewrite Ep, Ec, N.eqb_refl in T. cbn in T.
        rewrite (proj2 (pub_equal_iff key key)) in T; [discriminate|reflexivity].
Qed.

Lemma forall_filter : forall {A} (P : A -> Prop) f l, Forall P l -> Forall P (filter f l).
Proof. intros A P f l F. induction F; cbn; [constructor|]. destruct (f x); auto. Qed.
Lemma nodup_map_filter : forall {A B} (g : A -> B) f l, NoDup (map g l) -> NoDup (map g (filter f l)).
Proof.
  intros A B g f l. induction l as [|x l IH]; cbn; intro N; [constructor|]. inversion N as [|? ? N1 N2]; subst.
  destruct (f x); cbn; [|auto]. constructor; [|auto]. intro I. apply N1. apply in_map_iff in I.
  destruct I as (y & E & I). apply filter_In in I. apply in_map_iff. exists y. tauto.
Qed.
Lemma nodup_app_r : forall {A} (l k : list A), NoDup (l ++ k) -> NoDup k.
Proof. intros A l k. induction l; cbn; auto. intro N. inversion N; auto. Qed.
Lemma nodup_skipn : forall {A} n (l : list A), NoDup l -> NoDup (skipn n l).
Proof. intros A n l N. rewrite <- (firstn_skipn n l) in N. eapply nodup_app_r; eauto. Qed.
Lemma skipn_incl : forall {A} n (l : list A) x, In x (skipn n l) -> In x l.
Proof. intros A n l x I. rewrite <- (firstn_skipn n l). apply in_or_app. auto. Qed.

(** The states with another chain id, the oldest dropped when there are five, then the
    kept or the new one. *)
Definition others (chain : N) (r : grecord) : grecord := filter (fun s => negb (N.eqb (gs_chain s) chain)) r.

Lemma filter_ext_all : forall {A} (f : A -> bool) l, (forall x, In x l -> f x = true) -> filter f l = l.
Proof.
  intros A f l. induction l as [|x l IH]; intro H; cbn; [reflexivity|]. rewrite (H x (or_introl eq_refl)).
  f_equal. apply IH. intros; apply H; right; auto.
Qed.

Lemma gr_find_spec : forall chain r, NoDup (map gs_chain r) -> forall s,
  gr_find chain r = Some s <-> In s r /\ gs_chain s = chain.
Proof.
  intros chain r. induction r as [|x r IH]; intros N s; cbn [gr_find].
  - split; [discriminate|]. intros [[] _].
  - inversion N as [|? ? N1 N2]; subst. destruct (N.eqb_spec chain (gs_chain x)) as [E|E].
    + split; [intro H; injection H as <-; split; [left; reflexivity|auto]|].
      intros [[<-|I] Ec]; [reflexivity|]. exfalso. apply N1. rewrite <- E, <- Ec. apply in_map. exact I.
    + rewrite (IH N2). split; [intros [I Ec]; split; [right; exact I|exact Ec]|].
      intros [[<-|I] Ec]; [congruence|auto].
Qed.
Lemma gr_find_none : forall chain r, gr_find chain r = None <-> forall s, In s r -> gs_chain s <> chain.
Proof.
  intros chain r. induction r as [|x r IH]; cbn [gr_find]; [split; [intros _ s []|auto]|].
  destruct (N.eqb_spec chain (gs_chain x)) as [E|E].
  - split; [discriminate|]. intro H. exfalso. apply (H x (or_introl eq_refl)). auto.
  - rewrite IH. split; [intros H s [<-|I]; auto|]. intros H s I. apply H. right. exact I.
Qed.

Lemma gr_add_exact : forall s r key, wf_grecord r -> gs_public s = Ok key ->
  gr_add s r = Ok (keep_last 4 (others (gs_chain s) r) ++
    [match gr_find (gs_chain s) r with
     | Some e => if match gs_public e with Ok k => pub_equal key k | _ => false end then e else s
     | None => s end]).
Proof.
  intros s r key (L & ND & F) Ek. unfold gr_add. rewrite Ek. cbn [bind].
  destruct (gr_remove (gs_chain s) key r) as [o r1] eqn:E. pose proof (gr_remove_spec _ _ _ _ _ E) as S.
  assert (X : gr_remove_chain (gs_chain s) r1 = others (gs_chain s) r /\
    match o with Some e => e | None => s end =
    match gr_find (gs_chain s) r with
     | Some e => if match gs_public e with Ok k => pub_equal key k | _ => false end then e else s
     | None => s end).
  { destruct o as [e|].
    - destruct S as (a & b & -> & -> & Ec & Ep). split.
      + unfold gr_remove_chain, others. rewrite !filter_app. cbn [filter]. rewrite Ec, N.eqb_refl. reflexivity.
      + rewrite (proj2 (gr_find_spec (gs_chain s) (a ++ e :: b) ND e)).
        * rewrite Ep. rewrite (proj2 (pub_equal_iff key key)); reflexivity.
        * split; [apply in_or_app; right; left; reflexivity|exact Ec].
    - destruct S as [-> S]. split; [reflexivity|]. destruct (gr_find (gs_chain s) r) as [e|] eqn:Ef; [|reflexivity].
      apply (gr_find_spec _ _ ND) in Ef. destruct Ef as [I Ec]. specialize (S e I Ec).
      destruct (gs_public e) as [k| |]; [|reflexivity..]. destruct (pub_equal key k) eqn:Q; [|reflexivity].
      apply pub_equal_iff, pub_bytes_inj in Q. subst. congruence. }
  destruct X as [-> ->]. f_equal. f_equal. unfold keep_last, max_gstates.
  assert (Lo : List.length (others (gs_chain s) r) <= 5).
  { unfold others. pose proof (filter_length_le (fun x => negb (gs_chain x =? gs_chain s)%N) r). lia. }
  destruct (Nat.leb_spec 5 (List.length (others (gs_chain s) r))).
  - replace (List.length (others (gs_chain s) r) - 4) with 1 by lia. reflexivity.
  - replace (List.length (others (gs_chain s) r) - 4) with 0 by lia. reflexivity.
Qed.

Lemma keep_last_map_nodup : forall {A B} (g : A -> B) n l, NoDup (map g l) -> NoDup (map g (keep_last n l)).
Proof. intros A B g n l N. rewrite <- keep_last_map. unfold keep_last. apply nodup_skipn. exact N. Qed.

Lemma gr_add_wf : forall s r r', wf_grecord r -> wf_gstate s -> gr_add s r = Ok r' -> wf_grecord r'.
Proof.
  intros s r r' W Ws E. destruct (gs_public_wf s Ws) as (key & _ & _ & Ek).
  rewrite (gr_add_exact s r key W Ek) in E. injection E as <-.
  set (new := match gr_find (gs_chain s) r with
     | Some e => if match gs_public e with Ok k => pub_equal key k | _ => false end then e else s
     | None => s end).
  assert (Wn : wf_gstate new /\ gs_chain new = gs_chain s).
  { destruct W as (L & ND & F). unfold new. destruct (gr_find (gs_chain s) r) as [e|] eqn:Ef; [|auto].
    apply (gr_find_spec _ _ ND) in Ef. destruct Ef as [I Ec].
    destruct (match gs_public e with Ok k => _ | _ => _ end); [|auto]. rewrite Forall_forall in F. auto. }
  destruct Wn as [Wn Cn]. destruct W as (L & ND & F). split; [|split].
  - rewrite app_length. cbn [List.length]. pose proof (@keep_last_le gstate 4 (others (gs_chain s) r)). lia.
  - rewrite map_app. cbn [map]. rewrite Cn.
    assert (N1 : NoDup (map gs_chain (keep_last 4 (others (gs_chain s) r)))).
    { apply keep_last_map_nodup. apply nodup_map_filter. exact ND. }
    assert (N2 : ~ In (gs_chain s) (map gs_chain (keep_last 4 (others (gs_chain s) r)))).
    { intro I. apply in_map_iff in I. destruct I as (x & Ex & I). apply keep_last_in in I.
      unfold others in I. apply filter_In in I. destruct I as [_ I]. rewrite Ex, N.eqb_refl in I. discriminate. }
    revert N1 N2. generalize (map gs_chain (keep_last 4 (others (gs_chain s) r))). intro l. induction l as [|x l IH]; intros N1 N2.
    + constructor; [intros []|constructor].
    + inversion N1; subst. cbn. constructor.
      * rewrite in_app_iff. intros [I|[I|[]]]; [auto|]. apply N2. left. congruence.
      * apply IH; auto. intro I. apply N2. right. exact I.
  - apply Forall_app. split; [|constructor; auto]. apply keep_last_forall. apply forall_filter. exact F.
Qed.

Lemma gr_set_chains : forall chain s' r, gs_chain s' = chain -> map gs_chain (gr_set chain s' r) = map gs_chain r.
Proof.
  intros chain s' r E. induction r as [|x r IH]; cbn [gr_set map]; [reflexivity|].
  destruct (N.eqb_spec chain (gs_chain x)); cbn [map]; congruence.
Qed.
Lemma gr_set_wf : forall chain s' r, wf_grecord r -> wf_gstate s' -> gs_chain s' = chain -> wf_grecord (gr_set chain s' r).
Proof.
  intros chain s' r (L & ND & F) W E. split; [|split].
  - rewrite <- (map_length gs_chain), gr_set_chains, map_length by exact E. exact L.
  - rewrite gr_set_chains by exact E. exact ND.
  - clear L ND. induction r as [|x r IH]; cbn [gr_set]; [constructor|]. inversion F; subst.
    destruct (N.eqb _ _); constructor; auto.
Qed.
Lemma gr_set_first_wf : forall s s' r, wf_grecord (s :: r) -> wf_gstate s' -> gs_chain s' = gs_chain s ->
  wf_grecord (gr_set_first s' (s :: r)).
Proof.
  intros s s' r (L & ND & F) W E. cbn [gr_set_first]. split; [exact L|]. split.
  - cbn [map] in *. rewrite E. exact ND.
  - inversion F; subst. constructor; auto.
Qed.

(** Reading ahead saves one key per skipped position. *)
Definition gsaved (C : Crypto) (c : gchainkey) : gmk := mkGmk (gc_iter c) (c_hmac C (gc_key c) [Byte.x01]).
Definition gsaved_from (C : Crypto) (n : nat) (c : gchainkey) : list gmk :=
  map (fun i => gsaved C (gc_iter_n C i c)) (seq 0 n).

Lemma gsaved_from_S : forall C n c, gsaved_from C (S n) c = gsaved C c :: gsaved_from C n (gc_next C c).
Proof.
  intros C n c. unfold gsaved_from. cbn [seq map]. f_equal. rewrite <- seq_shift, map_map. apply map_ext.
  intro i. change (S i) with (1 + i)%nat. rewrite Nat.add_comm, gc_iter_add. reflexivity.
Qed.

Lemma gskip_exact : forall C n s ck, List.length (gs_keys s) <= 2000 ->
  gskip C n s ck = (gs_with_keys s (keep_last 2000 (gs_keys s ++ gsaved_from C n ck)), gc_iter_n C n ck).
Proof.
  intros C n. induction n as [|n IH]; intros s ck L.
  - cbn [gskip]. unfold gsaved_from. cbn [seq map]. rewrite app_nil_r, keep_last_all by exact L. destruct s; reflexivity.
  - cbn [gskip]. assert (K : gs_keys (gs_add_key s (gc_message_key C ck)) = keep_last 2000 (gs_keys s ++ [gsaved C ck])).
    { unfold gs_add_key, gs_with_keys. cbn [gs_keys]. rewrite trim_front_keep; [reflexivity|].
      rewrite app_length. cbn [List.length]. unfold max_message_keys. lia. }
    rewrite IH by (rewrite K; apply keep_last_le). rewrite K. rewrite keep_last_app, <- app_assoc. cbn [app].
    rewrite gsaved_from_S. f_equal.
    rewrite gc_iter_swap. reflexivity.
Qed.

Lemma gsaved_from_forall : forall C n c, CryptoOk C -> go_u32 (gc_iter c) -> Forall wf_gmk (gsaved_from C n c).
Proof.
  intros C n c H G. unfold gsaved_from. apply Forall_forall. intros x I. apply in_map_iff in I.
  destruct I as (i & <- & _). split; cbn [gsaved gm_iter gm_seed].
  - rewrite gc_iter_index by exact G. unfold u32, go_u32. apply N.mod_lt. discriminate.
  - apply (ok_hmac_len C H).
Qed.

(** The state after a message at or ahead of the chain's iteration; after a saved one. *)
Definition gafter_ahead (C : Crypto) (s : gstate) (iter : N) : gstate :=
  let n := N.to_nat (iter - gs_iter s) in
  gs_set_chainkey (gs_with_keys s (keep_last 2000 (gs_keys s ++ gsaved_from C n (gs_chainkey s))))
    (gc_next C (gc_iter_n C n (gs_chainkey s))).

Lemma gmessage_key_exact : forall C s iter, wf_gstate s -> gmessage_key C s iter =
  if (iter <? gs_iter s)%N then
    match take_gmk iter (gs_keys s) with
    | Some (k, l) => (Ok (derive_gmsgkey C (gm_seed k) (gm_iter k)), gs_with_keys s l)
    | None => (Err EDuplicate, s)
    end
  else if (25000 <? iter - gs_iter s)%N then (Err (EOther "message from too far in the future"), s)
  else (Ok (gc_message_key C (gc_iter_n C (N.to_nat (iter - gs_iter s)) (gs_chainkey s))), gafter_ahead C s iter).
Proof.
  intros C s iter (_ & _ & _ & _ & _ & _ & L & _). unfold gmessage_key. cbn [gs_chainkey gc_iter].
  destruct (iter <? gs_iter s)%N.
  - unfold gs_remove_key. destruct (take_gmk iter (gs_keys s)) as [[k l]|]; reflexivity.
  - destruct (25000 <? iter - gs_iter s)%N; [reflexivity|]. rewrite gskip_exact by exact L. reflexivity.
Qed.

Lemma take_gmk_some : forall i l k l', take_gmk i l = Some (k, l') ->
  exists a b, l = a ++ k :: b /\ l' = a ++ b /\ gm_iter k = i /\ forall x, In x a -> gm_iter x <> i.
Proof.
  intros i l. induction l as [|x l IH]; intros k l' E; cbn [take_gmk] in E; [discriminate|].
  destruct (N.eqb_spec (gm_iter x) i) as [Q|Q].
  - injection E as <- <-. exists [], l. repeat split; auto.
  - destruct (take_gmk i l) as [[k1 l1]|]; [|discriminate]. injection E as <- <-.
    destruct (IH k1 l1 eq_refl) as (a & b & -> & -> & Q1 & Q2). exists (x :: a), b.
    repeat split; auto. intros y [<-|I]; auto.
Qed.
Lemma take_gmk_none : forall i l, take_gmk i l = None <-> forall x, In x l -> gm_iter x <> i.
Proof.
  intros i l. induction l as [|x l IH]; cbn [take_gmk]; [split; [intros _ x []|auto]|].
  destruct (N.eqb_spec (gm_iter x) i) as [Q|Q].
  - split; [discriminate|]. intro H. exfalso. apply (H x (or_introl eq_refl) Q).
  - destruct (take_gmk i l) as [[k1 l1]|].
    + split; [discriminate|]. intro H. assert (X : Some (k1, l1) = None) by (apply IH; intros y I; apply H; right; exact I). discriminate.
    + split; [|auto]. intros _ y [<-|I]; [exact Q|]. apply IH; auto.
Qed.

Lemma gafter_ahead_wf : forall C s iter, CryptoOk C -> wf_gstate s -> wf_gstate (gafter_ahead C s iter).
Proof.
  intros C s iter H (V & Gc & Gi & Ls & K & P & L & F). unfold gafter_ahead, wf_gstate.
  cbn [gs_version gs_chain gs_iter gs_seed gs_pub gs_priv gs_keys gs_set_chainkey gs_with_keys gc_next gc_iter gc_key].
  split; [exact V|]. split; [exact Gc|]. split; [unfold u32, go_u32; apply N.mod_lt; discriminate|].
  split; [apply (ok_hmac_len C H)|]. split; [exact K|]. split; [exact P|]. split; [apply keep_last_le|].
  apply keep_last_forall. apply Forall_app. split; [exact F|]. apply gsaved_from_forall; auto.
Qed.
Lemma gmessage_key_wf : forall C s iter o s', CryptoOk C -> wf_gstate s -> gmessage_key C s iter = (o, s') ->
  wf_gstate s' /\ gs_chain s' = gs_chain s /\ gs_pub s' = gs_pub s /\ gs_priv s' = gs_priv s /\ o <> Panic.
Proof.
  intros C s iter o s' H W E. rewrite gmessage_key_exact in E by exact W.
  destruct (iter <? gs_iter s)%N.
  - destruct (take_gmk iter (gs_keys s)) as [[k l]|] eqn:T.
    + injection E as <- <-. split; [|repeat split; discriminate].
      destruct (take_gmk_some _ _ _ _ T) as (a & b & Q & -> & _).
      destruct W as (V & Gc & Gi & Ls & K & P & L & F). unfold wf_gstate.
      cbn [gs_version gs_chain gs_iter gs_seed gs_pub gs_priv gs_keys gs_with_keys].
      rewrite Q in L, F. apply Forall_app in F. destruct F as [F1 F2]. inversion F2; subst.
      rewrite app_length in L. cbn [List.length] in L.
      repeat (split; [assumption|]). split; [rewrite app_length; lia|]. apply Forall_app. auto.
    + injection E as <- <-. split; [exact W|]. repeat split; discriminate.
  - destruct (25000 <? iter - gs_iter s)%N; injection E as <- <-.
    + split; [exact W|]. repeat split; discriminate.
    + split; [apply gafter_ahead_wf; auto|]. repeat split; discriminate.
Qed.
Lemma new_gstate_wf : forall chain iter seed pub priv, go_u32 chain -> go_u32 iter -> List.length seed = 32 ->
  List.length pub = 32 -> (forall k, priv = Some k -> List.length (sk_bytes k) = 32) ->
  wf_gstate (new_gstate 3 chain iter seed pub priv).
Proof.
  intros chain iter seed pub priv Gc Gi Ls Lp Hp. unfold wf_gstate, new_gstate.
  cbn [gs_version gs_chain gs_iter gs_seed gs_pub gs_priv gs_keys]. split; [reflexivity|].
  split; [exact Gc|]. split; [exact Gi|]. split; [exact Ls|]. split; [apply key33_bytes; exact Lp|].
  split; [destruct priv; auto|]. split; [cbn; lia|constructor].
Qed.
Lemma wf_grecord_nil : wf_grecord [].
Proof. split; [cbn; lia|]. split; constructor. Qed.
