(** Refusal: a parser answers with an error. *)
From Verif Require Import M_Base.

Definition refused {A} (r : res A) : Prop := exists e, r = Err e.
