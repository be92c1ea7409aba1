(** The contract of binary search documented in std. *)
From Coq Require Import List.
From Verif Require Import M_Search.
Import ListNotations.

(** A slice sorted with respect to the closure: first [Less], then [Equal], then [Greater]. *)
Definition cmp_sorted (l : list comparison) : Prop :=
  exists a b c, l = repeat Lt a ++ repeat Eq b ++ repeat Gt c.

(** "If the value is found then [Result::Ok] is returned, containing the index of the matching
    element. If there are multiple matches, then any one of the matches could be returned. If
    the value is not found then [Result::Err] is returned, containing the index where a matching
    element could be inserted while maintaining sorted order." If the slice is not sorted the
    result is unspecified, but it is still an index of the slice and [Ok] is only returned
    for an element that compared equal ([bc_ok]; not documented, true of all implementations). *)
Record bs_contract (bs : list comparison -> bsres) : Prop := {
  bc_ok : forall l i, bs l = inl i -> nth_error l i = Some Eq;
  bc_range : forall l i, bs l = inr i -> i <= length l;
  bc_found : forall l, cmp_sorted l -> In Eq l -> exists i, bs l = inl i;
  bc_missing : forall a c, bs (repeat Lt a ++ repeat Gt c) = inr a
}.
