(** Vocabulary: harvests that only pay, and instructions executed in a row. *)
From Verif Require Import Base Types Instr External Processor Runtime.

(** A harvest that pays the stake account [sk] of the config [ck] to [auth] and
    does nothing else: any validator harvest, and a SOL stake harvest for which
    the view program reports the recorded validator and lamports. The accounts
    that a payment writes are passed as writable, as the instruction declares. *)
Inductive only_pays (w : world) (ck : pubkey) : ctx * call -> pubkey -> pubkey -> Prop :=
| PaysValidator cx a :
    hv_config a = ck ->
    writable cx ck = true -> writable cx (hv_stake a) = true -> writable cx (hv_authority a) = true ->
    only_pays w ck (cx, CHarvestValidatorRewards a) (hv_stake a) (hv_authority a)
| PaysStaker cx a s vw :
    hs_config a = ck ->
    dat (get w (hs_stake a)) = DSol s -> c_view cx = Some vw ->
    vw_vote vw = vote (s_del s) -> vw_effective vw = s_lamports s ->
    writable cx ck = true -> writable cx (hs_stake a) = true -> writable cx (hs_authority a) = true ->
    only_pays w ck (cx, CHarvestSolStakerRewards a) (hs_stake a) (hs_authority a).

(** Instructions one after the other; the first one that fails fails the whole row. *)
Fixpoint in_a_row (e : env) (l : list (ctx * call)) (w : world) : result world :=
  match l with
  | [] => Ok w
  | (cx, c) :: l => let* w1 := run e cx c w in in_a_row e l w1
  end.

(** The stake account a harvest names. *)
Definition harvested_stake (x : ctx * call) : pubkey :=
  match snd x with
  | CHarvestValidatorRewards a => hv_stake a
  | CHarvestSolStakerRewards a => hs_stake a
  | _ => 0
  end.
(** Paying harvests of different stake accounts of one config. *)
Definition paying (w : world) (ck : pubkey) (l : list (ctx * call)) : Prop :=
  (forall x, In x l -> exists sk auth, only_pays w ck x sk auth) /\ List.NoDup (map harvested_stake l).
