(** C61: equal safety numbers mean equal people and keys, or a clash of hashes. *)
From Verif Require Import M_Base M_Crypto M_Curve M_Fingerprint S_Crypto S_Message S_Fingerprint S_Numbers K_Toy P_CryptoTop P_Numbers.

(** Alice compares the code she shows (made from what she believes about both) with the one
    she scans from Bob (made from what he believes). *)
Theorem c61_scanned : forall C, CryptoOk C ->
  forall v it idA keyA idB keyB idA' keyA' idB' keyB' fa fb, go_u32 v ->
  List.length keyA = 32 -> List.length keyB = 32 -> List.length keyA' = 32 -> List.length keyB' = 32 ->
  new_fingerprint C v it idA keyA idB keyB = Ok fa ->
  new_fingerprint C v it idB' keyB' idA' keyA' = Ok fb ->
  scan_compare (fp_scan fa) (scan_bytes (fp_scan fb)) = Ok true ->
  ((idA = idA' /\ keyA = keyA') /\ (idB = idB' /\ keyB = keyB')) \/
  clash C same_head (N.to_nat it) idA keyA idA' keyA' \/ clash C same_head (N.to_nat it) idB keyB idB' keyB'.
Proof. exact scanned_means. Qed.
Print Assumptions c61_scanned.
(** They read each other the digits. *)
Theorem c61_displayed : forall C, CryptoOk C ->
  forall v v' it idA keyA idB keyB idA' keyA' idB' keyB' fa fb,
  List.length keyA = 32 -> List.length keyB = 32 -> List.length keyA' = 32 -> List.length keyB' = 32 ->
  new_fingerprint C v it idA keyA idB keyB = Ok fa ->
  new_fingerprint C v' it idB' keyB' idA' keyA' = Ok fb ->
  fp_string fa = fp_string fb ->
  ((idA = idA' /\ keyA = keyA') /\ (idB = idB' /\ keyB = keyB')) \/
  ((idA = idB' /\ keyA = keyB') /\ (idB = idA' /\ keyB = keyA')) \/
  exists id key id' key', In (id, key) [(idA, keyA); (idB, keyB)] /\ In (id', key') [(idA', keyA'); (idB', keyB')] /\
    clash C same_digits (N.to_nat it) id key id' key'.
Proof. exact displayed_means. Qed.
Print Assumptions c61_displayed.
Example c61_case : CryptoOk toy /\ go_u32 2 /\ exists f g,
  new_fingerprint toy 2 5200 (str "alice") (repeat Byte.x01 32) (str "bob") (repeat Byte.x02 32) = Ok f /\
  new_fingerprint toy 2 5200 (str "bob") (repeat Byte.x02 32) (str "alice") (repeat Byte.x01 32) = Ok g.
Proof. split; [exact toy_ok|]. split; [reflexivity|]. exact (some_fingerprint toy _ _ _ _ toy_ok). Qed.
