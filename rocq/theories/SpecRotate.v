(** Vocabulary for statements about the values moved round the times. *)
From Coq Require Import Reals List Arith.
From Verif Require Import SpecR.
Import ListNotations.

(** the list with its first [r] elements moved to the end *)
Definition rotated (rs : list R) (r : nat) : list R := skipn r rs ++ firstn r rs.

(** circular autocovariance: products of the deviations [h] places apart, the end joined to the beginning *)
Definition circular (rs : list R) (h : nat) : R :=
  rsum_n (length rs) (fun r => ((nth r rs 0 - rmean rs) * (nth ((r + h) mod length rs) rs 0 - rmean rs))%R).
