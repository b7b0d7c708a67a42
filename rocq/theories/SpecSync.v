(** When exactly a harvest of SOL-staker rewards succeeds. *)
From Verif Require Import Base Types Layout Instr Processor Runtime History Spec SpecReward SpecLive SpecNeeds.

(** The stake view program's answer differs from what the staker's account records. *)
Definition changed (s : sstake) (vw : view) : Prop :=
  vw_effective vw <> s_lamports s \/ vw_vote vw <> vote (s_del s).
(** The staker leaves one validator and joins one that has a stake account. *)
Definition leaves (s : sstake) : Prop := vote (s_del s) <> 0.
Definition joins (e : env) (w : world) (a : harvest_sol_accts) (vw : view) : Prop :=
  vw_vote vw <> 0 /\ own (get w (hs_cur a)) = e_prog e.
(** SOL recorded at the validator joined, afterwards; it may be the one just left. *)
Definition total_joined (s : sstake) (vw : view) (v : vstake) : N :=
  (if vw_vote vw =? vote (s_del s) then v_total v - s_lamports s else v_total v) + vw_effective vw.

Record can_sync (e : env) (w : world) (a : harvest_sol_accts) (s : sstake) (vw : view) : Prop := {
  cy_keeper : exists kp, hs_keeper a = Some kp;
  cy_prev : leaves s -> hs_prev a = e_val e (vote (s_del s)) (hs_config a) /\
    exists v, val_at e w (hs_prev a) v /\ hs_prev_auth a = authority (v_del v) /\
      cap (N.max (v_total v - s_lamports s) (v_min v)) < 2 ^ 64;
  cy_cur : vw_vote vw <> 0 -> hs_cur a = e_val e (vw_vote vw) (hs_config a);
  cy_join : joins e w a vw ->
    exists v, val_at e w (hs_cur a) v /\ hs_cur_auth a = authority (v_del v) /\
      total_joined s vw v < 2 ^ 64 /\ cap (N.max (total_joined s vw v) (v_min v)) < 2 ^ 64;
  (* the staker's own cap; with a validator that has no stake account its SOL counts as none *)
  cy_cap : vw_vote vw = 0 \/ joins e w a vw -> cap (vw_effective vw) < 2 ^ 64;
  (* the config can pay everybody settled and stay rent exempt *)
  cy_pay : affordable e w (hs_config a)
    (settles_with e w (hs_config a) (hs_stake a) (vote (s_del s)) (vw_vote vw));
}.
Record can_harvest_sol (e : env) (w : world) (a : harvest_sol_accts) (s : sstake) (vw : view) : Prop := {
  cz_config : exists c, config_at e w (hs_config a) c;
  cz_stake : can_settle e w (hs_config a) (hs_stake a) (hs_authority a) (hs_vhr a) (s_del s);
  cz_native : hs_native a = s_native s;
  cz_view : hs_view a = e_view e;
  cz_sync : changed s vw -> can_sync e w a s vw;
}.
(** The accounts such a harvest may write to, and those it may pay. *)
Definition sync_writes (e : env) (w : world) (a : harvest_sol_accts) (s : sstake) (vw : view) (k : pubkey) : Prop :=
  In k [hs_config a; hs_stake a; hs_authority a] \/
  changed s vw /\ (hs_keeper a = Some k \/ leaves s /\ In k [hs_prev a; hs_prev_auth a] \/
                   joins e w a vw /\ In k [hs_cur a; hs_cur_auth a]).
Definition sync_pays (e : env) (w : world) (a : harvest_sol_accts) (s : sstake) (vw : view) (k : pubkey) : Prop :=
  k = hs_authority a \/
  changed s vw /\ (hs_keeper a = Some k \/ leaves s /\ k = hs_prev_auth a \/ joins e w a vw /\ k = hs_cur_auth a).
