(** Vocabulary: many stake accounts asking for their rewards one after the other. *)
From Verif Require Import Base Types Layout Instr External Processor Runtime History Spec SpecReward SpecOrder.

(** The harvest [x] of the stake account [sk] of the config [ck] names the right
    accounts and pays [auth]; for a SOL stake the view program reports what is
    recorded. *)
Inductive proper (e : env) (w : world) (ck : pubkey) : ctx * call -> pubkey -> pubkey -> Prop :=
| ProperVal cx a v :
    hv_config a = ck -> val_at e w (hv_stake a) v -> hv_stake a = e_val e (vote (v_del v)) ck ->
    hv_authority a = authority (v_del v) -> hv_vhr a = e_holder e (e_vault e ck) ->
    wf_ctx e cx -> (forall k, In k [ck; hv_stake a; hv_authority a] -> writable cx k = true) ->
    proper e w ck (cx, CHarvestValidatorRewards a) (hv_stake a) (hv_authority a)
| ProperSol cx a s vw :
    hs_config a = ck -> sol_at e w (hs_stake a) s -> hs_stake a = e_sol e (s_native s) ck ->
    hs_authority a = authority (s_del s) -> hs_vhr a = e_holder e (e_vault e ck) ->
    hs_native a = s_native s -> hs_view a = e_view e ->
    c_view cx = Some vw -> vw_vote vw = vote (s_del s) -> vw_effective vw = s_lamports s ->
    wf_ctx e cx -> (forall k, In k [ck; hs_stake a; hs_authority a] -> writable cx k = true) ->
    proper e w ck (cx, CHarvestSolStakerRewards a) (hs_stake a) (hs_authority a).

(** Such harvests of different stake accounts; nobody is the config. *)
Definition queue (e : env) (w : world) (ck : pubkey) (l : list (ctx * call)) : Prop :=
  (forall x, In x l -> exists sk auth, proper e w ck x sk auth /\ auth <> ck) /\ List.NoDup (map harvested_stake l).
(** Whom a harvest pays. *)
Definition harvest_payee (x : ctx * call) : pubkey :=
  match snd x with
  | CHarvestValidatorRewards a => hv_authority a
  | CHarvestSolStakerRewards a => hs_authority a
  | _ => 0
  end.
(** What the queue is owed, and what [k] is owed in it. *)
Fixpoint dues (e : env) (w : world) (ck : pubkey) (l : list (ctx * call)) : N :=
  match l with [] => 0 | x :: l => pending e w ck (harvested_stake x) + dues e w ck l end.
Fixpoint dues_of (e : env) (w : world) (ck k : pubkey) (l : list (ctx * call)) : N :=
  match l with
  | [] => 0
  | x :: l => (if harvest_payee x =? k then pending e w ck (harvested_stake x) else 0) + dues_of e w ck k l
  end.
(** The config exists and its vault is known to the rewards program; fewer than 2^64 lamports exist. *)
Definition in_business (e : env) (w : world) (ck : pubkey) : Prop :=
  (exists c, config_at e w ck c) /\ (exists h, dat (get w (e_holder e (e_vault e ck))) = DHolder h) /\ total_lamports w < 2 ^ 64.
