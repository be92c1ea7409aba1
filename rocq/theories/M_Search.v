(** Searching a slice: the parts of std used by src/stat_map.rs. The searched slice is
    represented by the results of the comparison closure on its elements, which is all a
    search may look at (the closures used are pure). *)
From Coq Require Import Arith List.
Import ListNotations.

(** [Result<usize, usize>]: [inl] is [Ok], [inr] is [Err]. *)
Definition bsres : Type := (nat + nat)%type.

Definition at_cmp (l : list comparison) (i : nat) : comparison := nth i l Eq.

(** [slice::binary_search_by] of Rust 1.52 to 1.81:
<<
    let mut size = self.len(); let mut left = 0; let mut right = size;
    while left < right {
        let mid = left + size / 2;
        let cmp = f(unsafe { self.get_unchecked(mid) });
        left = if cmp == Less { mid + 1 } else { left };
        right = if cmp == Greater { mid } else { right };
        if cmp == Equal { return Ok(mid); }
        size = right - left;
    }
    Err(left)
>>
    [fuel] bounds the iterations; the length of the slice suffices (L_Search). *)
Fixpoint bs_old_loop (fuel : nat) (l : list comparison) (left right : nat) : bsres :=
  match fuel with
  | O => inr left
  | S fuel =>
      if left <? right then
        let mid := left + (right - left) / 2 in
        match at_cmp l mid with
        | Lt => bs_old_loop fuel l (mid + 1) right
        | Gt => bs_old_loop fuel l left mid
        | Eq => inl mid
        end
      else inr left
  end.
Definition bs_old (l : list comparison) : bsres := bs_old_loop (S (length l)) l 0 (length l).

(** [slice::binary_search_by] since Rust 1.82 (and before 1.52):
<<
    let mut size = self.len();
    if size == 0 { return Err(0); }
    let mut base = 0usize;
    while size > 1 {
        let half = size / 2;
        let mid = base + half;
        let cmp = f(unsafe { self.get_unchecked(mid) });
        base = if cmp == Greater { base } else { mid };
        size -= half;
    }
    let cmp = f(unsafe { self.get_unchecked(base) });
    if cmp == Equal { Ok(base) }
    else { let result = base + (cmp == Less) as usize; Err(result) }
>> *)
Fixpoint bs_new_loop (fuel : nat) (l : list comparison) (base size : nat) : nat :=
  match fuel with
  | O => base
  | S fuel =>
      if 1 <? size then
        let half := size / 2 in
        let mid := base + half in
        bs_new_loop fuel l (match at_cmp l mid with Gt => base | _ => mid end) (size - half)
      else base
  end.
Definition bs_new (l : list comparison) : bsres :=
  match l with
  | [] => inr 0
  | _ =>
      let base := bs_new_loop (length l) l 0 (length l) in
      match at_cmp l base with
      | Eq => inl base
      | Lt => inr (base + 1)
      | Gt => inr base
      end
  end.

Section Search.
  (** The std implementation in use. *)
  Variable bs : list comparison -> bsres.

  (** [slice::partition_point] (std):
      [self.binary_search_by(|x| if pred(x) { Less } else { Greater }).unwrap_or_else(|i| i)]. *)
  Definition partition_point (l : list bool) : nat :=
    match bs (map (fun b : bool => if b then Lt else Gt) l) with inl i => i | inr i => i end.
End Search.
