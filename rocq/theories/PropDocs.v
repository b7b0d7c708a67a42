(** C86: what the documentation promises. *)
From Verif Require Import Base Types Layout Instr Math External Processor Runtime Declared History Spec SpecReward
  WorldLemmas Effects Handlers Evolve Sane Arith Totals Nets Life Touches Inv Progress PropState PropTokens PropAuth PropDeclared SpecDocs Demo.

(** The limits in the text limit what counts, not what is staked; and it is 1.3, not
    0.65, of the SOL. *)
Theorem C86_limits_refuted : exists w, reachable denv w /\
  ~ staker_limit denv w /\ ~ validator_limit denv w /\ ~ half_limit denv w /\ ~ config_tracks_staked denv w.
Proof.
  exists (at_end story). split; [apply at_end_reachable, story_runs|].
  assert (sol_at denv (at_end story) ksol1 (sol_of (at_end story) ksol1)) as S1 by (split; vm_compute; reflexivity).
  assert (val_at denv (at_end story) kval1 (val_of (at_end story) kval1)) as V1 by (split; vm_compute; reflexivity).
  assert (config_at denv (at_end story) kcfg (cfg_of (at_end story) kcfg)) as C1 by (split; vm_compute; reflexivity).
  split; [intros H; specialize (H _ _ S1); revert H; vm_compute; now intros H; apply H|].
  split; [intros H; specialize (H _ _ V1); revert H; vm_compute; now intros H; apply H|].
  split; [intros H; specialize (H _ _ S1); revert H; vm_compute; now intros H; apply H|].
  intros H; specialize (H _ _ C1); revert H; vm_compute; discriminate.
Qed.
Print Assumptions C86_limits_refuted.

(** Moving a SOL staker's tokens changes no validator's account: validators do not
    track the tokens of their stakers (README.md l.11, l.46). *)
Theorem C86_validators_do_not_track_tokens e cx c w w' k v : env_ok e -> run e cx c w = Ok w' ->
  token_stakes c <> [] -> ~ In k (token_stakes c) -> val_at e w k v -> val_at e w' k v.
Proof.
  intros OK RUN NE NI [O D]. apply run_ok in RUN as (_ & H & _).
  destruct H; try (exfalso; apply NE; reflexivity); cbn [token_stakes] in NI.
  - destruct (staked_net _ _ _ _ _ _ OK H) as [c0 d h rpt sr hr D2 d2 RD _ _ _ _ _ HO HX].
    pose proof (rd_c _ _ _ _ _ _ _ _ _ _ _ RD). split; [now rewrite HO|]. rewrite HX; auto; [congruence|intros ->; apply NI; simpl; auto].
  - destruct (slashed_net _ _ _ _ _ _ OK H) as [c0 d h rpt sr hr D2 d2 RD _ _ _ _ _ HO HX].
    pose proof (rd_c _ _ _ _ _ _ _ _ _ _ _ RD). split; [now rewrite HO|]. rewrite HX; auto; [congruence|intros ->; apply NI; simpl; auto].
  - destruct (staked_net _ _ _ _ _ _ OK H) as [c0 d h rpt sr hr D2 d2 RD _ _ _ _ _ HO HX].
    pose proof (rd_c _ _ _ _ _ _ _ _ _ _ _ RD). split; [now rewrite HO|]. rewrite HX; auto; [congruence|intros ->; apply NI; simpl; auto].
  - destruct (unstaked_net _ _ _ _ _ _ OK H) as (c1 & _ & [c0 d h rpt sr hr D2 d2 RD _ _ _ _ _ HO HX]).
    pose proof (rd_c _ _ _ _ _ _ _ _ _ _ _ RD). split; [now rewrite HO|]. rewrite HX; auto; [congruence|intros ->; apply NI; simpl; auto].
  - destruct (slashed_net _ _ _ _ _ _ OK H) as [c0 d h rpt sr hr D2 d2 RD _ _ _ _ _ HO HX].
    pose proof (rd_c _ _ _ _ _ _ _ _ _ _ _ RD). split; [now rewrite HO|]. rewrite HX; auto; [congruence|intros ->; apply NI; simpl; auto].
  - assert (exists c0, dat (get w (mv_config a)) = DConfig c0) as [c0 C0].
    { destruct H. destruct (harvested_net _ _ _ _ _ _ _ _ _ H1) as (c1 & d1 & h & rpt & sr & hr & RD & _). exists c1. exact (rd_c _ _ _ _ _ _ _ _ _ _ _ RD). }
    destruct (moved_net_ok _ _ _ _ _ _ H). split; [congruence|].
    rewrite Hoth; auto; [congruence|intros ->; apply NI; simpl; auto|intros ->; apply NI; simpl; auto].
Qed.
Print Assumptions C86_validators_do_not_track_tokens.
(* Staking 2000 tokens with nat1 leaves its validator's account as it was. *)
Example C86_tokens_case : let l := firstn 5 setup in
  reachable denv (at_end l) /\ runs (l ++ [stake_sol nat1 bob btok bob 2000 0]) = true /\
  vote (s_del (sol_of (at_end l) ksol1)) = vote1 /\ val_of (at_end setup) kval1 = val_of (at_end l) kval1 /\
  staked (v_del (val_of (at_end setup) kval1)) = 500.
Proof. split; [apply at_end_reachable; vm_compute; reflexivity|]. vm_compute. auto. Qed.

(** instruction.rs l.584 calls UnstakeTokens permissionless: it never succeeds without
    the stake authority's signature, and the tokens are out at once. *)
Theorem C86_unstake_is_not_permissionless e cx a n w w' : env_ok e -> reachable e w -> run e cx (CUnstakeTokens a n) w = Ok w' ->
  exists d, stake_of e w (un_config a) (un_stake a) = Some d /\ signed cx (authority d) = true /\
    (un_dest a <> un_ptok a -> tokens e w' (un_dest a) = tokens e w (un_dest a) + n).
Proof.
  intros OK R RUN. destruct (C06_unstake_exact _ _ _ _ _ _ OK R RUN) as (d & d' & S & S' & E & _ & _ & T & _).
  exists d. split; [exact S|]. split.
  - apply run_ok in RUN as (_ & D & _). inversion D as [| | | | | | | | | | |? ? U| | | |]; subst.
    destruct (stake_of_some _ _ _ _ _ S) as (_ & DD & _). destruct U. congruence.
  - intros NE. specialize (T (un_dest a)). rewrite N.eqb_refl in T. destruct (N.eqb_spec (un_dest a) (un_ptok a)); [contradiction|]. lia.
Qed.
Print Assumptions C86_unstake_is_not_permissionless.
(** config.rs l.29: no cooldown has to pass before tokens come out. Here the cooldown is
    1000 seconds, and half of a stake leaves in the second in which it was made. *)
Theorem C86_cooldown_refuted : exists w, reachable denv w /\ ~ cooldown_first denv w.
Proof.
  exists (at_end (firstn 5 setup)). split; [apply at_end_reachable; vm_compute; reflexivity|].
  intros H. specialize (H (cx [bob] 0 None 0) (cx [bob] 0 None 0) (stake_accts_of ksol1 bob btok bob)
    (UnstakeA kcfg kpool kptok ksol1 bob kvtok kpda kvhr kmint btok (e_token denv)) 2000 1000
    (at_end setup) (at_end (setup ++ [unstake ksol1 bob btok 1000 0 0])) (cfg_of (at_end (firstn 5 setup)) kcfg)).
  assert (0 + cfg_cooldown (cfg_of (at_end (firstn 5 setup)) kcfg) <= 0) as F.
  { apply H; [apply (at_end_run (firstn 5 setup)); vm_compute; reflexivity|apply (at_end_run setup); vm_compute; reflexivity|
      reflexivity|split; vm_compute; reflexivity|reflexivity]. }
  revert F. vm_compute. intros F. now apply F.
Qed.
Print Assumptions C86_cooldown_refuted.

(** Anybody can create accounts: the signatures make no difference. *)
Theorem C86_anybody_creates e cx sg c w : creation c = true ->
  run e (Ctx sg (c_writable cx) (c_now cx) (c_view cx) (c_pool_acc cx)) c w = run e cx c w.
Proof.
  intros C. fold (resign cx sg (c_writable cx)). unfold run.
  rewrite (handler_sig e cx c w sg (c_writable cx)); [|destruct c; try discriminate C; intros k []].
  destruct (handler e cx c w); reflexivity.
Qed.
Print Assumptions C86_anybody_creates.
Example C86_create_case : runs setup = true /\ creation (CInitializeValidatorStake (InitValA kcfg 0 0 0)) = true /\
  (exists w', run denv (cx [] 0 None 0) (CInitializeValidatorStake (InitValA kcfg (e_duna denv alice docs) kval1 vote1)) (at_end [init_config]) = Ok w').
Proof.
  split; [vm_compute; reflexivity|]. split; [reflexivity|]. exists (at_end [init_config; init_val vote1 alice]).
  apply (at_end_run [init_config]). vm_compute. reflexivity.
Qed.

(** config.rs l.18: the authority "can modify any elements in the config" - not the slash
    authority, nor the vault, its bump or the document's hash. *)
Theorem C86_config_authority_is_limited e cx c w w' k cf : env_ok e -> reachable e w -> run e cx c w = Ok w' ->
  config_at e w k cf -> signed cx (cfg_slash cf) = false ->
  exists cf', config_at e w' k cf' /\ cfg_slash cf' = cfg_slash cf /\ cfg_vault cf' = cfg_vault cf /\
    cfg_bump cf' = cfg_bump cf /\ cfg_duna cf' = cfg_duna cf.
Proof.
  intros OK R RUN C NS. pose proof (i_sane _ _ (inv_reachable _ _ OK R)) as S.
  pose proof (run_ok _ _ _ _ _ RUN) as (_ & D & _). destruct (kept_config _ _ _ _ _ (kept_did _ _ _ _ _ OK S D) C) as (cf' & C' & V & B & U).
  exists cf'. split; [exact C'|]. split; [|auto].
  destruct (N.eq_dec (cfg_slash cf') (cfg_slash cf)) as [E|NE]; [exact E|].
  destruct (C14_config_changes _ _ _ _ _ _ _ _ OK R RUN C C') as [_ F]. destruct (F NE) as [_ G]. congruence.
Qed.
Print Assumptions C86_config_authority_is_limited.
(* Governance signs for its own field; trying the slasher's field it is refused. *)
Example C86_authority_case : let w := at_end setup in reachable denv w /\
  cfg_authority (cfg_of w kcfg) = gov /\ cfg_slash (cfg_of w kcfg) = slasher /\
  signed (cx [gov] 0 None 0) (cfg_slash (cfg_of w kcfg)) = false /\
  run denv (cx [gov] 0 None 0) (CSetAuthority (SetAuthA kcfg gov dave) AuthSlash) w = Err (Stake InvalidAuthority) /\
  runs (setup ++ [Call (cx [gov] 0 None 0) (CSetAuthority (SetAuthA kcfg gov dave) AuthConfig)]) = true.
Proof. split; [apply at_end_reachable; vm_compute; reflexivity|]. vm_compute. auto 10. Qed.
