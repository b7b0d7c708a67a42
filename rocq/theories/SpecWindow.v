(** Stretches of history within one cooldown period. *)
From Verif Require Import Base Types Processor Runtime History Spec.

(** A window: a stretch of history in which the clock at every unstake is between
    [t0] and [t0 + D], the cap at most [b] and the cooldown at least [D]. *)
Definition in_window (e : env) (ck : pubkey) (t0 D b : N) (w : world) (ev : event) : Prop :=
  forall cx a n cf, ev = Do cx (CUnstakeTokens a n) -> un_config a = ck -> config_at e w ck cf ->
    t0 <= c_now cx < t0 + D /\ D <= cfg_cooldown cf /\ cfg_bps cf <= b.
Inductive window (e : env) (ck : pubkey) (t0 D b : N) : world -> world -> N -> N -> Prop :=
| window_here w : window e ck t0 D b w w 0 0
| window_on w w1 U S ev w2 : window e ck t0 D b w w1 U S -> step e w1 ev w2 ->
    in_window e ck t0 D b w1 ev ->
    window e ck t0 D b w w2 (U + unstaked_in ck w1 ev) (S + staked_in ck w1 ev).
