(** C01-C05, C15-C17, C31, C35, C45: what holds in every reachable state. *)
From Verif Require Import Base Types Layout Instr Math External Processor Runtime History Spec
  Sane Arith Inv Life Totals Caps Stakers Evolve Handlers Deposits Wf Demo.

(** ** C01 *)
Theorem C01_effective_total e w ck c : env_ok e -> reachable e w -> config_at e w ck c ->
  cfg_effective c = sum_of e w ck effective.
Proof. intros OK R. apply (i_eff _ _ (inv_reachable _ _ OK R)). Qed.
Print Assumptions C01_effective_total.
Example C01_case : env_ok denv /\ reachable denv (at_end story) /\
  config_at denv (at_end story) kcfg (cfg_of (at_end story) kcfg) /\
  cfg_effective (cfg_of (at_end story) kcfg) = 1325.
Proof. split; [apply denv_ok|]. split; [apply at_end_reachable, story_runs|]. vm_compute. auto. Qed.

(** ** C02 *)
Theorem C02_staker_effective e w k s : env_ok e -> reachable e w -> sol_at e w k s ->
  effective (s_del s) = N.min (staked (s_del s)) (13 * s_lamports s / 10).
Proof.
  intros OK R [O D]. pose proof (i_caps _ _ (inv_reachable _ _ OK R) k O) as C. rewrite D in C. exact C.
Qed.
Print Assumptions C02_staker_effective.
(* one staker limited by its SOL, the other by its tokens *)
Example C02_case : reachable denv (at_end story) /\
  sol_at denv (at_end story) ksol1 (sol_of (at_end story) ksol1) /\
  staked (s_del (sol_of (at_end story) ksol1)) = 1200 /\ effective (s_del (sol_of (at_end story) ksol1)) = 910 /\
  sol_at denv (at_end story) ksol2 (sol_of (at_end story) ksol2) /\
  staked (s_del (sol_of (at_end story) ksol2)) = 350 /\ effective (s_del (sol_of (at_end story) ksol2)) = 350.
Proof. split; [apply at_end_reachable, story_runs|]. vm_compute. auto 10. Qed.

(** ** C03 *)
Theorem C03_validator_effective e w k v : env_ok e -> reachable e w -> val_at e w k v ->
  effective (v_del v) <= N.min (staked (v_del v)) (13 * N.max (v_total v) (v_min v) / 10).
Proof.
  intros OK R [O D]. pose proof (i_caps _ _ (inv_reachable _ _ OK R) k O) as C. rewrite D in C. exact C.
Qed.
Print Assumptions C03_validator_effective.
Example C03_case : reachable denv (at_end story) /\
  val_at denv (at_end story) kval1 (val_of (at_end story) kval1) /\
  staked (v_del (val_of (at_end story) kval1)) = 500 /\ effective (v_del (val_of (at_end story) kval1)) = 65.
Proof. split; [apply at_end_reachable, story_runs|]. vm_compute. auto 10. Qed.

(** Every instruction but InitializeSolStakerStake leaves a validator whose
    stake, SOL total or minimum it changed with exactly the capped amount. *)
Theorem C03_exact_after_change e cx c w w' k v v' : env_ok e -> run e cx c w = Ok w' ->
  (forall a, c <> CInitializeSolStakerStake a) -> val_at e w k v -> val_at e w' k v' ->
  staked (v_del v') <> staked (v_del v) \/ v_total v' <> v_total v \/ v_min v' <> v_min v ->
  effective (v_del v') = N.min (staked (v_del v')) (13 * N.max (v_total v') (v_min v') / 10).
Proof.
  intros OK R NI [O D] [O' D'] CH. apply run_ok in R as (_ & DD & _). destruct (creates c) eqn:C.
  - exfalso. destruct DD; try discriminate C; [| |eapply NI; reflexivity]; destruct H;
      pose proof (Hd k) as X; rewrite D, D' in X.
    + destruct (_ =? k); [discriminate|]. injection X as ->. intuition congruence.
    + destruct (N.eqb_spec (iv_stake a) k) as [EE|]; [|injection X as ->; intuition congruence].
      rewrite <- EE, Hsd in D. discriminate.
  - destruct (recaps_did _ _ _ _ _ OK DD C) as [_ RC]. specialize (RC k O). rewrite D, D' in RC. simpl in RC.
    destruct RC as (x & [= <-] & [E|(A & B & C' & _)]); [exact E|]. intuition congruence.
Qed.
Print Assumptions C03_exact_after_change.
Example C03_exact_case :
  let l := removelast story in
  runs (l ++ [override vote1 dave 50]) = true /\
  v_min (val_of (at_end l) kval1) = 0 /\ v_min (val_of (at_end (l ++ [override vote1 dave 50])) kval1) = 50 /\
  effective (v_del (val_of (at_end l) kval1)) = 0 /\
  effective (v_del (val_of (at_end (l ++ [override vote1 dave 50])) kval1)) = 65.
Proof. vm_compute. auto 10. Qed.

(** A validator with tokens and SOL stakers, and no effective stake. *)
Definition late_staker : list act :=
  [ init_config; init_val vote1 alice; stake_val vote1 alice atok alice 500; init_sol nat1 vote1 bob 1000 ].
Theorem C03_always_exact_refuted :
  exists e w k v, env_ok e /\ reachable e w /\ val_at e w k v /\
    effective (v_del v) < N.min (staked (v_del v)) (13 * N.max (v_total v) (v_min v) / 10).
Proof.
  exists denv, (at_end late_staker), kval1, (val_of (at_end late_staker) kval1).
  split; [apply denv_ok|]. split; [apply at_end_reachable; vm_compute; reflexivity|]. vm_compute. auto.
Qed.
Print Assumptions C03_always_exact_refuted.

(** ** C04 *)
Theorem C04_validator_total e w ck k v : env_ok e -> reachable e w -> val_at e w k v ->
  k = e_val e (vote (v_del v)) ck -> v_total v = staker_lamports e w ck (vote (v_del v)).
Proof. intros OK R A B. apply (proj1 (i_totals _ _ (inv_reachable _ _ OK R)) _ _ _ A B). Qed.
Print Assumptions C04_validator_total.
Theorem C04_undelegated e w k s : env_ok e -> reachable e w -> sol_at e w k s ->
  vote (s_del s) = 0 -> s_lamports s = 0.
Proof.
  intros OK R A. pose proof (inv_reachable _ _ OK R) as I. destruct (sane_sol _ _ (i_sane _ _ I) _ _ A) as (ck & c & K & _).
  apply (proj2 (i_totals _ _ I) _ _ _ A K).
Qed.
Print Assumptions C04_undelegated.
(* after a redelegation and a second staker *)
Example C04_case : reachable denv (at_end story) /\
  val_at denv (at_end story) kval2 (val_of (at_end story) kval2) /\
  kval2 = e_val denv (vote (v_del (val_of (at_end story) kval2))) kcfg /\
  v_total (val_of (at_end story) kval2) = 5700.
Proof. split; [apply at_end_reachable, story_runs|]. vm_compute. auto 10. Qed.
Definition undelegated : list act :=
  setup ++ [ Pay carol kcfg 1000; harvest_sol nat1 bob vote1 alice vote1 alice (Some carol) (View 0 bob 0) ].
Example C04_undelegated_case : reachable denv (at_end undelegated) /\
  sol_at denv (at_end undelegated) ksol1 (sol_of (at_end undelegated) ksol1) /\
  vote (s_del (sol_of (at_end undelegated) ksol1)) = 0 /\ staked (s_del (sol_of (at_end undelegated) ksol1)) = 2000.
Proof. split; [apply at_end_reachable; vm_compute; reflexivity|]. vm_compute. auto 10. Qed.

(** ** C05 *)
Theorem C05_staked_plus_slashed e ck w0 w n : env_ok e -> genesis e w0 ->
  tally e (slashed_in e ck) w0 w n -> sum_of e w ck staked + n = deposit e w ck.
Proof. exact (backed_tally e ck w0 w n). Qed.
Print Assumptions C05_staked_plus_slashed.
Theorem C05_backed e ck w : env_ok e -> reachable e w -> sum_of e w ck staked <= deposit e w ck.
Proof. intros OK R. apply (i_backed _ _ (inv_reachable _ _ OK R)). Qed.
Print Assumptions C05_backed.
(* 50 tokens were slashed *)
Example C05_case : genesis denv world0 /\ tally denv (slashed_in denv kcfg) world0 (at_end story) 50 /\
  sum_of denv (at_end story) kcfg staked = 2050 /\ deposit denv (at_end story) kcfg = 2100.
Proof.
  split; [apply world0_genesis|]. split; [|vm_compute; auto].
  replace 50 with (count (slashed_in denv kcfg) story) by (vm_compute; reflexivity).
  apply count_tally, story_runs.
Qed.

(** ** C15 *)
Theorem C15_config_identity e w tr w' k c : env_ok e -> reachable e w -> steps e w tr w' -> config_at e w k c ->
  exists c', config_at e w' k c' /\
    cfg_vault c' = cfg_vault c /\ cfg_bump c' = cfg_bump c /\ cfg_duna c' = cfg_duna c.
Proof. intros OK R S. eapply kept_config, kept_steps; eauto using inv_reachable. Qed.
Print Assumptions C15_config_identity.
Theorem C15_validator_identity e w tr w' k v : env_ok e -> reachable e w -> steps e w tr w' -> val_at e w k v ->
  exists v', val_at e w' k v' /\ vote (v_del v') = vote (v_del v).
Proof. intros OK R S. eapply kept_val, kept_steps; eauto using inv_reachable. Qed.
Print Assumptions C15_validator_identity.
Theorem C15_staker_identity e w tr w' k s : env_ok e -> reachable e w -> steps e w tr w' -> sol_at e w k s ->
  exists s', sol_at e w' k s' /\ s_native s' = s_native s /\ authority (s_del s') = authority (s_del s).
Proof. intros OK R S. eapply kept_sol, kept_steps; eauto using inv_reachable. Qed.
Print Assumptions C15_staker_identity.
(** Initialisation succeeds only on an account that is not initialised. *)
Theorem C15_no_reinitialisation e w cx c w' : env_ok e -> reachable e w -> run e cx c w = Ok w' ->
  match c with
  | CInitializeConfig a _ _ _ _ _ _ => exists b, dat (get w (ic_config a)) = DRaw b
  | CInitializeValidatorStake a => own (get w (iv_stake a)) = 0 /\ dat (get w (iv_stake a)) = DRaw []
  | CInitializeSolStakerStake a => own (get w (is_stake a)) = 0 /\ dat (get w (is_stake a)) = DRaw []
  | _ => True
  end.
Proof.
  intros OK R RUN. pose proof (inv_reachable _ _ OK R) as I. apply run_ok in RUN as (_ & D & _).
  destruct D; auto.
  - destruct (config_created_facts _ _ _ _ _ _ _ _ _ _ _ OK (i_sane _ _ I) H) as (bs & E & _). eauto.
  - destruct H; auto.
  - destruct H; auto.
Qed.
Print Assumptions C15_no_reinitialisation.
(** ** C46: stake accounts are never closed: their lamports never fall and always cover
    their rent. *)
Theorem C46_stake_lamports e w tr w' k : env_ok e -> reachable e w -> steps e w tr w' ->
  own (get w k) = e_prog e -> (exists v, dat (get w k) = DVal v) \/ (exists s, dat (get w k) = DSol s) ->
  lam (get w k) <= lam (get w' k) /\ e_rent e (data_len (dat (get w k))) <= lam (get w k).
Proof.
  intros OK R S O D. pose proof (inv_reachable _ _ OK R) as I.
  assert (stakeish (dat (get w k))) as ST by (destruct D as [[? ->]|[? ->]]; exact Logic.I).
  split; [apply (lam_up_steps _ _ _ _ OK I S k O ST)|]. now apply (stake_rent_reachable _ _ OK R).
Qed.
Print Assumptions C46_stake_lamports.
Lemma script_steps l l' : runs (l ++ l') = true -> exists tr, steps denv (at_end l) tr (at_end (l ++ l')).
Proof.
  revert l'. apply (rev_ind (fun l' => runs (l ++ l') = true -> exists tr, steps denv (at_end l) tr (at_end (l ++ l')))).
  - intros _. rewrite app_nil_r. exists []. constructor.
  - intros a l' IH. rewrite app_assoc. intros R. destruct IH as [tr S].
    { unfold runs, after in *. rewrite play_app in R. destruct (play none_in world0 0 (l ++ l')) as [[]|]; auto. }
    exists (tr ++ [event_of a]). econstructor; [exact S|]. now apply at_end_step.
Qed.
Definition story_rest : list act := skipn (length setup) story.
Example C15_case : reachable denv (at_end setup) /\ (exists tr, steps denv (at_end setup) tr (at_end story)) /\
  config_at denv (at_end setup) kcfg (cfg_of (at_end setup) kcfg) /\
  val_at denv (at_end setup) kval1 (val_of (at_end setup) kval1) /\
  sol_at denv (at_end setup) ksol1 (sol_of (at_end setup) ksol1) /\
  vote (s_del (sol_of (at_end setup) ksol1)) <> vote (s_del (sol_of (at_end story) ksol1)).
Proof.
  split; [apply at_end_reachable, setup_runs|]. split.
  - apply (script_steps setup story_rest). vm_compute. reflexivity.
  - vm_compute. repeat split; discriminate.
Qed.

(** ** C16 *)
Theorem C16_bps e w k c : env_ok e -> reachable e w -> config_at e w k c -> cfg_bps c <= 10000.
Proof. intros OK R A. apply (sane_cfg _ _ (i_sane _ _ (inv_reachable _ _ OK R)) _ _ A). Qed.
Print Assumptions C16_bps.
Theorem C16_limit_computable e w ck c k d : env_ok e -> reachable e w -> config_at e w ck c ->
  stake_of e w ck k = Some d ->
  exists m, max_deactivation_amount (staked d) (cfg_bps c) = Ok m /\ m <= staked d.
Proof.
  intros OK R A S. pose proof (inv_reachable _ _ OK R) as I. exists (staked d * cfg_bps c / 10000).
  apply maxdeact_exact; [|now apply (C16_bps e w ck)]. apply stake_of_some in S as (_ & D & _).
  apply (wf_del_at _ _ _ (i_wf _ _ I) D).
Qed.
Print Assumptions C16_limit_computable.
Example C16_case : reachable denv (at_end story) /\
  config_at denv (at_end story) kcfg (cfg_of (at_end story) kcfg) /\
  cfg_bps (cfg_of (at_end story) kcfg) = 5000 /\
  stake_of denv (at_end story) kcfg ksol1 = Some (s_del (sol_of (at_end story) ksol1)).
Proof. split; [apply at_end_reachable, story_runs|]. vm_compute. auto 10. Qed.

(** ** C17 *)
Theorem C17_lamports_recorded e w k c : env_ok e -> reachable e w -> config_at e w k c ->
  cfg_last c <= lam (get w k).
Proof. intros OK R A. apply (i_lamp _ _ (inv_reachable _ _ OK R) _ _ A). Qed.
Print Assumptions C17_lamports_recorded.
Theorem C17_sync_never_fails e w k c : env_ok e -> reachable e w -> config_at e w k c ->
  exists w', sync_config_lamports w k = Ok w'.
Proof.
  intros OK R A. pose proof (C17_lamports_recorded e w k c OK R A) as L. pose proof (inv_reachable _ _ OK R) as I.
  destruct A as [O D]. unfold sync_config_lamports. rewrite D. cbn [unpack_config bind].
  unfold csub. destruct (N.leb_spec (cfg_last c) (lam (get w k))); [|lia]. cbn [bind].
  rewrite rpt_exact; [eauto|]. pose proof (i_wf _ _ I k) as [W _]. lia.
Qed.
Print Assumptions C17_sync_never_fails.
Example C17_case : let w := at_end (setup ++ [Pay carol kcfg 1000000]) in reachable denv w /\
  config_at denv w kcfg (cfg_of w kcfg) /\ cfg_last (cfg_of w kcfg) + 1000000 = lam (get w kcfg).
Proof. split; [apply at_end_reachable; vm_compute; reflexivity|]. vm_compute. auto. Qed.

(** ** C31 *)
Theorem C31_staker_authority e w0 tr w k s : env_ok e -> genesis e w0 -> steps e w0 tr w -> sol_at e w k s ->
  exists cx a vw, In (Do cx (CInitializeSolStakerStake a)) tr /\ is_stake a = k /\ is_native a = s_native s /\
    c_view cx = Some vw /\ authority (s_del s) = vw_withdrawer vw.
Proof. exact (sol_origin e w0 tr w k s). Qed.
Print Assumptions C31_staker_authority.
Example C31_case : (exists tr, steps denv world0 tr (at_end story)) /\
  sol_at denv (at_end story) ksol2 (sol_of (at_end story) ksol2) /\
  authority (s_del (sol_of (at_end story) ksol2)) = bob.
Proof.
  split; [apply (script_steps [] story); apply story_runs|]. vm_compute. auto.
Qed.

(** ** C35 *)
Theorem C35_rent_exempt e w k c : env_ok e -> reachable e w -> config_at e w k c ->
  e_rent e CONFIG_LEN <= lam (get w k).
Proof. intros OK R A. apply (i_lamp _ _ (inv_reachable _ _ OK R) _ _ A). Qed.
Print Assumptions C35_rent_exempt.
(* one lamport of rounding is left above the rent minimum after paying 1777777 out *)
Example C35_case : reachable denv (at_end story) /\
  config_at denv (at_end story) kcfg (cfg_of (at_end story) kcfg) /\
  lam (get (at_end story) kcfg) = e_rent denv CONFIG_LEN + 1.
Proof. split; [apply at_end_reachable, story_runs|]. vm_compute. auto. Qed.

(** ** C45 *)
Theorem C45_validator_home e w k v : env_ok e -> reachable e w -> val_at e w k v ->
  exists ck, (k = e_val e (vote (v_del v)) ck /\ exists c, config_at e w ck c) /\
    forall ck', k = e_val e (vote (v_del v)) ck' -> ck' = ck.
Proof.
  intros OK R A. destruct (sane_val _ _ (i_sane _ _ (inv_reachable _ _ OK R)) _ _ A) as (ck & c & K & C).
  exists ck. split; [eauto|]. intros ck' K'. rewrite K in K'. now apply (ok_val_inj _ OK) in K'.
Qed.
Print Assumptions C45_validator_home.
Theorem C45_staker_home e w k s : env_ok e -> reachable e w -> sol_at e w k s ->
  exists ck, (k = e_sol e (s_native s) ck /\ exists c, config_at e w ck c) /\
    forall ck', k = e_sol e (s_native s) ck' -> ck' = ck.
Proof.
  intros OK R A. destruct (sane_sol _ _ (i_sane _ _ (inv_reachable _ _ OK R)) _ _ A) as (ck & c & K & C).
  exists ck. split; [eauto|]. intros ck' K'. rewrite K in K'. now apply (ok_sol_inj _ OK) in K'.
Qed.
Print Assumptions C45_staker_home.
Theorem C45_one_validator_stake e w ck k k' v v' d d' : env_ok e -> reachable e w ->
  val_at e w k v -> val_at e w k' v' -> stake_of e w ck k = Some d -> stake_of e w ck k' = Some d' ->
  vote (v_del v) = vote (v_del v') -> k = k'.
Proof.
  intros OK R [_ D] [_ D'] S S' V. apply stake_of_some in S as (_ & _ & B). apply stake_of_some in S' as (_ & _ & B').
  rewrite D in B. rewrite D' in B'. simpl in *. congruence.
Qed.
Print Assumptions C45_one_validator_stake.
Theorem C45_one_staker_stake e w ck k k' s s' d d' : env_ok e -> reachable e w ->
  sol_at e w k s -> sol_at e w k' s' -> stake_of e w ck k = Some d -> stake_of e w ck k' = Some d' ->
  s_native s = s_native s' -> k = k'.
Proof.
  intros OK R [_ D] [_ D'] S S' V. apply stake_of_some in S as (_ & _ & B). apply stake_of_some in S' as (_ & _ & B').
  rewrite D in B. rewrite D' in B'. simpl in *. congruence.
Qed.
Print Assumptions C45_one_staker_stake.
Example C45_case : reachable denv (at_end story) /\
  val_at denv (at_end story) kval1 (val_of (at_end story) kval1) /\
  sol_at denv (at_end story) ksol1 (sol_of (at_end story) ksol1) /\
  stake_of denv (at_end story) kcfg kval1 = Some (v_del (val_of (at_end story) kval1)).
Proof. split; [apply at_end_reachable, story_runs|]. vm_compute. auto. Qed.
