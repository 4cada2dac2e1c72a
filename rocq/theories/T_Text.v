(** C87: text forms tell apart what they stand for. *)
From Verif Require Import M_Base M_Text S_Fingerprint S_Text P_Text.

(** * C87  Printed addresses, pre-key ids and message types are unambiguous *)
(** An address reads as its name, a dot and the numeral of its device. *)
Theorem c87_address_form : forall a, exists d, numeral (a_dev a) d /\ address_string a = str (a_name a) ++ str "." ++ d.
Proof. exact address_form. Qed.
Print Assumptions c87_address_form.
(** Two addresses with the same text are equal, dots and digits in names notwithstanding. *)
Theorem c87_addresses : forall a b, address_string a = address_string b -> a = b.
Proof. exact address_inj. Qed.
Print Assumptions c87_addresses.
Example c87_addresses_case : address_string (mkAddr "+14151111111.1" 12) = str "+14151111111.1.12" /\
  address_string (mkAddr "" 0) = str ".0" /\ address_string (mkAddr "x" 4294967295) = str "x.4294967295".
Proof. repeat split. Qed.
(** A pre-key id reads as its numeral. *)
Theorem c87_prekey_id : forall id, numeral id (prekey_id_string id).
Proof. exact format_uint_numeral. Qed.
Print Assumptions c87_prekey_id.
Theorem c87_prekey_ids : forall i j, prekey_id_string i = prekey_id_string j -> i = j.
Proof. exact format_uint_inj. Qed.
Print Assumptions c87_prekey_ids.
Example c87_prekey_ids_case : prekey_id_string 0 = str "0" /\ prekey_id_string 10 = str "10" /\ prekey_id_string 4294967295 = str "4294967295".
Proof. repeat split. Qed.
(** The four message types read as their names, any other value as its number. *)
Theorem c87_type_names : type_string 2 = str "WhisperType" /\ type_string 3 = str "PreKeyType" /\
  type_string 7 = str "SenderKeyType" /\ type_string 8 = str "PlaintextType" /\
  forall t, ~ In t [2; 3; 7; 8]%Z -> exists d, int_numeral t d /\ type_string t = str "CiphertextType(" ++ d ++ str ")".
Proof. exact (conj eq_refl (conj eq_refl (conj eq_refl (conj eq_refl type_other)))). Qed.
Print Assumptions c87_type_names.
Theorem c87_types : forall s t, type_string s = type_string t -> s = t.
Proof. exact type_inj. Qed.
Print Assumptions c87_types.
Example c87_types_case : type_string 5 = str "CiphertextType(5)" /\ type_string (-120) = str "CiphertextType(-120)".
Proof. split; reflexivity. Qed.
