(** What stake accounts are entitled to, written without the model's helpers. *)
From Verif Require Import Base Types Processor Runtime History Spec.

(** Advance of a 128-bit counter that may have wrapped. *)
Definition since (a b : N) : N := Z.to_N ((Z.of_N a - Z.of_N b) mod 2 ^ 128).

(** The staking accumulator once the lamports that arrived at the config (its
    balance [l] above the balance last seen) are shared over the effective total. *)
Definition acc_now (l : N) (c : config) : N :=
  if cfg_effective c =? 0 then cfg_acc c
  else (cfg_acc c + (l - cfg_last c) * 10 ^ 18 / cfg_effective c) mod 2 ^ 128.

(** Staking and holder rewards of a delegation of config [ck]. *)
Definition stake_claim (w : world) (ck : pubkey) (c : config) (d : delegation) : N :=
  since (acc_now (lam (get w ck)) c) (last_stake d) * effective d / 10 ^ 18.
Definition holder_claim (e : env) (w : world) (ck : pubkey) (d : delegation) : N :=
  since (holder_acc e w ck) (last_holder d) * staked d / 10 ^ 18.

(** What a stake account of [ck] would be paid now. *)
Definition pending (e : env) (w : world) (ck k : pubkey) : N :=
  match stake_of e w ck k, dat (get w ck) with
  | Some d, DConfig c => stake_claim w ck c d + holder_claim e w ck d
  | _, _ => 0
  end.

(** The staking accumulator of config [ck] brought up to date. *)
Definition acc_at (w : world) (ck : pubkey) : N :=
  match dat (get w ck) with DConfig c => acc_now (lam (get w ck)) c | _ => 0 end.

(** The keeper an instruction names. *)
Definition keeper_in (c : call) : option pubkey :=
  match c with CHarvestSolStakerRewards a => hs_keeper a | _ => None end.

(** Sums over a list of accounts, and the part of the stake accounts [ks] whose
    authority is [x]. *)
Fixpoint sum_over (f : pubkey -> N) (ks : list pubkey) : N :=
  match ks with [] => 0 | k :: r => f k + sum_over f r end.
Definition share (e : env) (w : world) (ck x k : pubkey) : N :=
  match stake_of e w ck k with Some d => if authority d =? x then pending e w ck k else 0 | None => 0 end.

(** The stake accounts a synchronising harvest of the SOL staker at [sk] settles:
    its own, and those of the validators it leaves and joins. *)
Definition settles_with (e : env) (w : world) (ck sk old new x : pubkey) : Prop :=
  x = sk \/ (old <> 0 /\ x = e_val e old ck) \/
  (new <> 0 /\ x = e_val e new ck /\ own (get w x) = e_prog e).
