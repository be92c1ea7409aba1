(** Lemmas for the examples of registered bounds. *)
From Coq Require Import ZArith List Bool Lia.
From Verif Require Import M_Outcome M_Ints M_Value M_Types M_Qualifier M_Search M_Stat M_StatMap M_HashMap M_Pair M_Defaults M_Querier
  S_Search S_StatMap S_Pair S_Defaults S_Querier S_Totals S_EndToEnd S_Rules S_Held S_Demo S_DemoDefaults S_DemoQuery S_DemoGame S_DemoHeld
  L_DemoGame.
Import ListNotations.
Local Open Scope Z_scope.

Lemma held_lawful n : lawful_game demoT bs_new op_size op_align held_game (held_laws n).
Proof.
  split; [|split; [reflexivity|constructor; [split; reflexivity|constructor]]].
  pose proof (demo_set_up true) as U. constructor.
  - cbn [g_defaults held_game g_querier with_children sq_with_component j_world held_world w_defaults].
    split; [repeat constructor|]. split.
    + intros s [(op & [H|[H|[H|[]]]]) Hn]; [discriminate H| |]; assert (s = hp) by (injection H; congruence); subst s;
        apply (Hn (Quad 100 (-2147483648) 2147483647 1)); left; reflexivity.
    + assert (K : defaults_ok (map dmethod held_dlog) = Done 0%nat) by (vm_compute; reflexivity). unfold defaults_ok in K. unfold demo_defaults.
      destruct (d_run op_size op_align [] (map dmethod held_dlog)) as [[d lost]| | |]; try discriminate. exists lost. reflexivity.
  - reflexivity.
  - exact (u_global_logs _ _ _ _ U).
  - reflexivity.
  - reflexivity.
  - reflexivity.
  - exact (u_logs _ _ _ _ U).
Qed.
Lemma held_min : registered held_game hp (@OMin SI (-5)).
Proof. exists [@EDefault demo hp (@FromBase SI 100) (Quad 100 (-2147483648) 2147483647 1)], [@EPatch demo hp (@OMax SI 700)]. split; [reflexivity|]. constructor; [intros _; exact Logic.I|constructor]. Qed.
Lemma held_max : registered held_game hp (@OMax SI 700).
Proof. exists demo_dlog, []. split; [reflexivity|constructor]. Qed.
Lemma held_adjusts n r : In (inr r) (held_laws n) -> adjusts hp r.
Proof.
  intros [E|[E|[]]]; [discriminate|]. injection E as <-. intros _ e x. cbn [curse r_code returns]. destruct x as [q|]; [|constructor].
  destruct ((q : Z) =? 0); [constructor; [exact Logic.I|constructor]|constructor].
Qed.
