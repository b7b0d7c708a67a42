(** Vocabulary: many stakers taking their tokens out one after the other. *)
From Verif Require Import Base Types Layout Instr External Processor Runtime History Spec SpecReward SpecLive SpecOrder.

(** Somebody unstaking: the transaction, the accounts and the amount. *)
Record leaver := Leaver { lv_ctx : ctx; lv_accts : unstake_accts; lv_amount : N }.
Definition lv_call (x : leaver) : ctx * call := (lv_ctx x, CUnstakeTokens (lv_accts x) (lv_amount x)).
Definition lv_stake (x : leaver) : pubkey := un_stake (lv_accts x).
Definition lv_dest (x : leaver) : pubkey := un_dest (lv_accts x).
(** The tokens taken out, and those that go to [k]. *)
Fixpoint leaving (l : list leaver) : N :=
  match l with [] => 0 | x :: l => lv_amount x + leaving l end.
Fixpoint leaving_to (k : pubkey) (l : list leaver) : N :=
  match l with [] => 0 | x :: l => (if lv_dest x =? k then lv_amount x else 0) + leaving_to k l end.

(** Different stakes of the config [ck]; each unstake alone would go through, the
    pool has no new rewards, and the destinations have room. *)
Record lined_up (e : env) (w : world) (ck : pubkey) (l : list leaver) : Prop := {
  lu_each : forall x, In x l -> un_config (lv_accts x) = ck /\ wf_ctx e (lv_ctx x) /\
    c_pool_acc (lv_ctx x) mod 2 ^ 128 = holder_acc e w ck /\
    exists c d, good_unstake e (lv_ctx x) (lv_accts x) (lv_amount x) w c d;
  lu_distinct : List.NoDup (map lv_stake l);
  lu_pool : forall x y, In x l -> In y l -> un_ptok (lv_accts x) = un_ptok (lv_accts y);
  lu_room : forall x, In x l -> tokens e w (lv_dest x) + leaving l < 2 ^ 64;
}.
(** The config can pay the rewards pending for all of them and stay rent exempt. *)
Definition payable (e : env) (w : world) (ck : pubkey) (l : list leaver) : Prop :=
  sum_over (pending e w ck) (map lv_stake l) + e_rent e CONFIG_LEN <= lam (get w ck).

(** Everybody gets what they asked for: tokens, and the rewards that were pending. *)
Record everybody_left (e : env) (ck : pubkey) (l : list leaver) (w w' : world) : Prop := {
  el_reach : reachable e w';
  el_config : forall c, config_at e w ck c -> exists c', config_at e w' ck c' /\ cfg_vault c' = cfg_vault c /\ cfg_bps c' = cfg_bps c;
  el_stakes : forall x, In x l -> exists d d', stake_of e w ck (lv_stake x) = Some d /\ stake_of e w' ck (lv_stake x) = Some d' /\
    staked d' + lv_amount x = staked d;
  el_others : forall k, ~ In k (map lv_stake l) -> stake_of e w' ck k = stake_of e w ck k /\ pending e w' ck k = pending e w ck k;
  el_settled : forall x, In x l -> pending e w' ck (lv_stake x) = 0;
  el_tokens : forall x, In x l -> tokens e w' (lv_dest x) = tokens e w (lv_dest x) + leaving_to (lv_dest x) l;
  el_deposit : deposit e w' ck + leaving l = deposit e w ck;
  el_lam : forall k, lam (get w' k) + (if k =? ck then sum_over (pending e w ck) (map lv_stake l) else 0) =
    lam (get w k) + sum_over (share e w ck k) (map lv_stake l);
}.
