(** Which keys and parties a parsed whisper message verifies for (C01). *)
From Verif Require Import M_Base M_Crypto M_Curve M_Proto M_Message S_Crypto S_Message S_Wire
  P_Base P_Proto P_Curve P_Message P_Wire.

Lemma mac_exact : forall C raw m key s r, parse_signal raw = Ok m ->
  exists text tag, raw = text ++ tag /\ List.length tag = 8 /\
    (verify_mac C m key s r = Ok true <->
       (List.length key = 32 /\ tag = firstn 8 (c_hmac C key ((Byte.x05 :: s) ++ (Byte.x05 :: r) ++ text)))) /\
    (List.length key <> 32 -> exists e, verify_mac C m key s r = Err e) /\
    verify_mac C m key s r <> Panic.
Proof.
  intros C raw m key s r P.
  assert (E : sg_raw m = raw /\ 8 <= List.length raw).
  { apply parse_signal_iff in P. destruct P as (v & body & tag & fs & -> & T & _ & _ & _ & ->).
    split; [reflexivity|]. cbn [List.length]. rewrite app_length. lia. }
  destruct E as [E L].
  exists (firstn (List.length raw - 8) raw), (skipn (List.length raw - 8) raw).
  split; [symmetry; apply firstn_skipn|]. split; [rewrite skipn_length; lia|].
  unfold verify_mac. rewrite E. destruct (Nat.ltb_spec (List.length raw) 8); [lia|].
  unfold mac, pub_bytes. destruct (Nat.eqb_spec (List.length key) 32) as [K|K]; cbn [negb bind].
  - split.
    + split.
      * intro Q. apply (f_equal (fun x => match x with Ok y => y | _ => false end)) in Q. cbn beta iota in Q.
        apply bytes_eqb_eq in Q. split; [exact K|symmetry; exact Q].
      * intros [_ Q]. f_equal. apply bytes_eqb_eq. symmetry. exact Q.
    + split; [intro; contradiction|discriminate].
  - split; [split; [discriminate|intros [? _]; contradiction]|]. split; [eexists; reflexivity|discriminate].
Qed.
