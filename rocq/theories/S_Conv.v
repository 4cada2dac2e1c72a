(** What a party to a two-party conversation has received, without any cryptography.

    Each party's sending chains are numbered: the responder's pre-key chain is epoch 0, the
    initiator's first chain is epoch 1, and every time a party sees a new epoch of the
    other it starts the next one. A message is named by its epoch and its counter. *)
From Verif Require Import M_Base.
Local Open Scope N_scope.

(** What is known of one receiving epoch: position of the chain and positions behind it
    whose keys are saved. *)
Record rview := mkView { rv_epoch : nat; rv_idx : N; rv_saved : list N }.
(** A party: its own sending epoch, next counter, and the receiving epochs, oldest first. *)
Record party := mkParty { p_epoch : nat; p_sent : N; p_views : list rview }.

Definition last_n {A} (n : nat) (l : list A) : list A := skipn (List.length l - n) l.
(** from, from+1, ..., to-1 *)
Definition positions (from to : N) : list N :=
  map (fun i => from + N.of_nat i) (seq 0 (N.to_nat (to - from))).

(** Message [n] of epoch [k] can be received: its epoch is known and it is at or ahead of
    the chain by at most 25000, or behind it with its key saved; or it opens the other
    party's next epoch. *)
Inductive receivable (p : party) (k : nat) (n : N) : Prop :=
| rec_ahead : forall v, In v (p_views p) -> rv_epoch v = k -> rv_idx v <= n <= rv_idx v + 25000 -> receivable p k n
| rec_saved : forall v, In v (p_views p) -> rv_epoch v = k -> n < rv_idx v -> In n (rv_saved v) -> receivable p k n
| rec_new : k = S (p_epoch p) -> n <= 25000 -> receivable p k n.

(** Receiving it. The chain moves to the position of the message (not past it, see C24);
    at most 2000 saved positions and 5 epochs are kept. *)
Definition view_after (n : N) (v : rview) : rview :=
  if n <? rv_idx v
  then mkView (rv_epoch v) (rv_idx v) (filter (fun i => negb (i =? n)) (rv_saved v))
  else mkView (rv_epoch v) n (last_n 2000 (rv_saved v ++ positions (rv_idx v) n)).
Definition party_after (p : party) (k : nat) (n : N) : party :=
  if Nat.eqb k (S (p_epoch p))
  then mkParty (S k) 0 (last_n 5 (p_views p ++ [mkView k n (last_n 2000 (positions 0 n))]))
  else mkParty (p_epoch p) (p_sent p)
         (map (fun v => if Nat.eqb (rv_epoch v) k then view_after n v else v) (p_views p)).
