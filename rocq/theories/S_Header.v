(** What the headers of a conversation say (C69). *)
From Verif Require Import M_Base S_History.
Local Open Scope N_scope.

(** Number of messages sent in epoch [k]. *)
Definition sent_in (notes : list note) (k : nat) : N :=
  N.of_nat (List.length (filter (fun x => Nat.eqb (nt_epoch x) k) notes)).
