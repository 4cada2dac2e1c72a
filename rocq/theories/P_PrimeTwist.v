(** The order of the large subgroup of the twist of curve25519 is prime. *)
From Verif Require Import M_Base M_Crypto M_Aes M_Curve P_Prime P_PrimeEll.
From Coq Require Import ZArith Znumtheory Lia.
Local Open Scope Z_scope.

Definition ellt : N := 14474011154664524427946373126085988481603263447650325797860494125407373907997%N.
Lemma prime_28859 : prime 28859. Proof. by1 307 2. small. Qed.
Lemma prime_t1 : prime 5171003929967. Proof. by2 28859 2281 2 2; [apply prime_28859|small]. Qed.
Lemma prime_t2 : prime 22561162540501040539. Proof. by1 5171003929967 2. apply prime_t1. Qed.
Lemma prime_t3 : prime 1013266244677. Proof. by2 8053 3911 2 2; small. Qed.
Lemma prime_t4 : prime 203852586375664218368381551393371968928013. Proof. by2 22561162540501040539 1013266244677 2 2; [apply prime_t2|apply prime_t3]. Qed.
Lemma prime_t5 : prime 104719073621178708975837602950775180438320278101. Proof. by1 203852586375664218368381551393371968928013 2. apply prime_t4. Qed.
Lemma prime_t6 : prime 27413359092552162435694767700453926735143482401279781. Proof. by1 104719073621178708975837602950775180438320278101 2. apply prime_t5. Qed.
Theorem prime_ellt : prime (Z.of_N ellt).
Proof.
  change (Z.of_N ellt) with 14474011154664524427946373126085988481603263447650325797860494125407373907997.
  by1 27413359092552162435694767700453926735143482401279781 2. apply prime_t6.
Qed.
