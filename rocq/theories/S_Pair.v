(** Which arm of a [match_stat!] is meant to run, and what keeps a pair well typed. *)
From Coq Require Import ZArith List.
From Verif Require Import M_Outcome M_Value M_Stat M_Pair.
Import ListNotations.

Section S.
  Context {P : Prog}.
  (** The value in the pair is of the value type of the pair's stat (src/stat.rs:279-280). *)
  Definition pair_ok (p : pair P) : Prop := b_ty (p_buf p) = vt_value P (si_ty (p_stat p)).
  (** A pair seen as a stat and a value of its type. *)
  Definition pair_is_val (p : pair P) (s : inst P) (v : val (VT P (vt_value P (si_ty s)))) : Prop :=
    p = Pair s (Buf (vt_value P (si_ty s)) v).

  (** The arm is about the stat [s]. *)
  Definition arm_for {R} (s : inst P) (a : arm P R) : Prop :=
    match a with
    | ABind t _ => si_ty s = t
    | AIs o _ => s = o
    | AWild _ => True
    end.
  (** Running the body of an arm for stat [s] on a value of its type. *)
  Inductive arm_runs {R} (s : inst P) (v : val (VT P (vt_value P (si_ty s)))) :
      arm P R -> outcome (pair P * R) -> Prop :=
  | runs_bind : forall body,
      arm_runs s v (ABind (si_ty s) body)
        (let! r := body (si_index s) v in Done (Pair s (Buf _ (fst r)), snd r))
  | runs_is : forall body,
      arm_runs s v (AIs s body) (let! r := body v in Done (Pair s (Buf _ (fst r)), snd r))
  | runs_wild : forall body, arm_runs s v (AWild body) (body (Pair s (Buf _ v))).

  (** The stat types named by the arms are small enough for [validate] and convert indices
      of their own values back. *)
  Definition good_stat (D : StatTypes P) (s : sty P) : Prop := validate (s_size D s) (s_align D s) = Done tt.
  Definition arm_ok {R} (D : StatTypes P) (a : arm P R) : Prop :=
    match a with ABind t _ => good_stat D t | AIs o _ => good_stat D (si_ty o) | AWild _ => True end.

  (** User code in arms and callbacks is itself free of undefined behaviour and, when given
      the whole pair, keeps it well typed. *)
  Definition arm_sound {R} (a : arm P R) : Prop :=
    match a with
    | ABind _ body => forall i v, body i v <> UB
    | AIs _ body => forall v, body v <> UB
    | AWild body => forall p, pair_ok p -> body p <> UB /\ forall p' r, body p = Done (p', r) -> pair_ok p'
    end.
  Definition pair_op_sound (D : StatTypes P) (o : pair_op P) : Prop :=
    match o with
    | OMatch l => Forall arm_sound l
    | OCast _ f => forall v, f v <> UB
    | OIs _ f => forall v, f v <> UB
    | _ => True
    end.
  Definition index_sound (D : StatTypes P) : Prop := forall s i, s_from_index D s i <> UB.
  (** The operation does not put another pair in place. *)
  Definition keeps_stat (o : pair_op P) : Prop :=
    match o with
    | OReplace _ _ | OSwapDefault _ => False
    | OMatch l => Forall (fun a => match a with AWild body => forall p p' r, body p = Done (p', r) -> p_stat p' = p_stat p | _ => True end) l
    | _ => True
    end.
End S.
