(** Rewards owed are covered, and what is paid by every settling instruction. *)
From Verif Require Import Base Types Layout Instr Math External Processor Runtime History Spec SpecReward SpecSolvency
  WorldLemmas Effects Handlers Evolve Sane Wf Totals Arith Nets Caps Stakers Deposits Inv Life Tokens Gov Flow
  Rewards Collect Pays Progress Demo PropState PropTokens PropAuth PropReward Solvency.

(** ** C18: the rewards owed are covered *)
Lemma created_level e cx a s au cd b sy du w w' : env_ok e -> reachable e w ->
  run e cx (CInitializeConfig a s au cd b sy du) w = Ok w' -> exists cf, config_at e w' (ic_config a) cf /\
    level e w' (ic_config a) cf = 0 /\ seen e w' (ic_config a) cf = funds e w' (ic_config a).
Proof.
  intros OK R RUN. pose proof (i_sane _ _ (inv_reachable _ _ OK R)) as S. apply run_ok in RUN as (_ & D & _).
  inversion D as [a0 s0 au0 cd0 b0 sy0 du0 H| | | | | | | | | | | | | | |]; subst.
  destruct (config_created_facts _ _ _ _ _ _ _ _ _ _ _ OK S H) as (bs & DR & _ & O & _ & NE).
  pose proof (stake_of_created_config _ _ _ _ _ _ _ _ _ _ _ OK S H) as SO.
  assert (forall k, stake_of e w (ic_config a) k = None) as NO.
  { intros k. destruct (stake_of e w (ic_config a) k) as [d|] eqn:E; auto. exfalso.
    apply stake_of_some in E as (KO & DD & B). destruct (dat (get w k)) eqn:DK; try discriminate.
    - destruct (sane_val _ _ S k _ (conj KO DK)) as (ck & c & K & C). simpl in B. rewrite K in B.
      apply (ok_val_inj _ OK) in B as [_ ->]. destruct C. congruence.
    - destruct (sane_sol _ _ S k _ (conj KO DK)) as (ck & c & K & C). simpl in B. rewrite K in B.
      apply (ok_sol_inj _ OK) in B as [_ ->]. destruct C. congruence. }
  destruct H. eexists. split; [|split].
  - split; [rewrite Ho|rewrite Hd, N.eqb_refl; reflexivity].
    destruct (N.eqb_spec (ic_vault_pda a) (ic_config a)); [congruence|auto].
  - unfold level, owed. set (g := owing _ _). apply N.le_0_r.
    rewrite <- (N.mul_0_l (sum_of e w' (ic_config a) g)), <- sum_of_scale. unfold sum_of.
    apply wsum_le; [apply sum_of_zero_default|apply (sum_of_zero_default _ _ (fun d => 0 * g d))|].
    intros k. pose proof (NO k) as Z. rewrite <- SO in Z. unfold stake_of in Z. now rewrite Z.
  - unfold seen, funds. cbn [cfg_last]. now rewrite (Hl (ic_config a)).
Qed.
(** At every moment after a config's creation its stake accounts together are owed
    at most what the config and the vault authority hold above their balances at
    creation, plus the allowances for settling the vault. *)
Theorem C18_solvency e cx a s au cd b sy du w0 w w' n : env_ok e -> reachable e w0 ->
  step e w0 (Do cx (CInitializeConfig a s au cd b sy du)) w -> covered e (ic_config a) w w' n ->
  claims e w' (ic_config a) + funds e w (ic_config a) <= funds e w' (ic_config a) + n / 10 ^ 18.
Proof.
  intros OK R ST CV. pose proof (reachable_step _ _ _ _ R ST) as R1. inversion ST as [? ? ? ? WC CL RUN|]; subst.
  destruct (created_level _ _ _ _ _ _ _ _ _ _ _ OK R RUN) as (cf & C & L & F).
  pose proof (covered_claims _ _ _ _ _ _ OK R1 CV C) as K. rewrite L, F in K.
  set (x := claims e w' _) in *. set (y := funds e w _) in *. set (z := funds e w' _) in *. clearbody x y z.
  pose proof (N.div_mod n (10 ^ 18) ltac:(lia)) as DM. pose proof (N.mod_lt n (10 ^ 18) ltac:(lia)) as ML.
  set (q := n / 10 ^ 18) in *. set (m := n mod 10 ^ 18) in *. clearbody q m. lia.
Qed.
Print Assumptions C18_solvency.
(** When tokens are only staked while the vault is settled with the rewards pool
    (so nobody's deposit moves the accumulator), the gap is at most one lamport per
    settlement of the vault. *)
Lemma tended_covered e ck w w' n : tended e ck w w' n -> exists m, covered e ck w w' m /\ m <= 10 ^ 18 * n.
Proof.
  induction 1 as [w|w w1 n ev w2 T IH ST DS NK]; [exists 0; split; [constructor|lia]|].
  destruct IH as (m & C & L). exists (m + allowance e ck w1 ev). split; [econstructor; eauto|].
  assert (allowance e ck w1 ev <= 10 ^ 18 * settlement e ck ev) as A; [|lia].
  destruct ev as [cx c|]; [|reflexivity]. destruct c; try reflexivity; cbn [allowance settlement deposits_settled] in *;
    unfold settles_vault.
  - destruct (N.eqb_spec (st_config a) ck) as [E|]; [|reflexivity]. rewrite (DS E), N.eqb_refl. reflexivity.
  - destruct (_ =? ck); [|reflexivity]. destruct (_ =? _); lia.
  - destruct (N.eqb_spec (st_config a) ck) as [E|]; [|reflexivity]. rewrite (DS E), N.eqb_refl. reflexivity.
  - destruct (_ =? ck); [|reflexivity]. destruct (_ =? _); lia.
Qed.
Theorem C18_one_lamport_per_settlement e cx a s au cd b sy du w0 w w' n : env_ok e -> reachable e w0 ->
  step e w0 (Do cx (CInitializeConfig a s au cd b sy du)) w -> tended e (ic_config a) w w' n ->
  claims e w' (ic_config a) + funds e w (ic_config a) <= funds e w' (ic_config a) + n.
Proof.
  intros OK R ST T. destruct (tended_covered _ _ _ _ _ T) as (m & C & L).
  pose proof (C18_solvency _ _ _ _ _ _ _ _ _ _ _ _ _ OK R ST C) as K.
  assert (m / 10 ^ 18 <= n) by (apply N.div_le_upper_bound; lia). lia.
Qed.
Print Assumptions C18_one_lamport_per_settlement.
(** Between any two moments: new claims are covered by new lamports. *)
Theorem C18_new_claims_covered e ck w w' n cf : env_ok e -> reachable e w -> config_at e w ck cf ->
  cfg_last cf = lam (get w ck) -> covered e ck w w' n ->
  10 ^ 18 * claims e w' ck + 10 ^ 18 * funds e w ck <=
  sum_of e w ck (fun d => since (acc_now (lam (get w ck)) cf) (last_stake d) * effective d +
                          since (holder_acc e w ck) (last_holder d) * staked d) +
  10 ^ 18 * funds e w' ck + n.
Proof.
  intros OK R C E CV. pose proof (covered_claims _ _ _ _ _ _ OK R CV C) as K.
  unfold seen, level, owed, owing in K. unfold funds at 1. rewrite E in K.
  rewrite acc_now_seen; [exact K|eapply reach_acc_ok; eauto; apply C|lia].
Qed.
Print Assumptions C18_new_claims_covered.

(** Scripts as covered and tended histories. *)
Definition no_keeper (a : act) : bool :=
  match a with Call _ c => negb (bool_decide (keeper_in c = Some kcfg)) | _ => true end.
Definition settledb (w : world) (a : act) : bool :=
  match a with
  | Call cx (CValidatorStakeTokens a _) | Call cx (CSolStakerStakeTokens a _) =>
      negb (st_config a =? kcfg) || (c_pool_acc cx mod 2 ^ 128 =? holder_acc denv w kcfg)
  | _ => true
  end.
Fixpoint tend (w : world) (l : list act) : bool :=
  match l with
  | [] => true
  | a :: l => settledb w a && match do w a with Some w' => tend w' l | None => false end
  end.
Lemma no_keeper_ok a : no_keeper a = true -> forall cx c, event_of a = Do cx c -> keeper_in c <> Some kcfg.
Proof.
  destruct a; simpl; try discriminate. intros H cx0 c0 [= <- <-]. apply negb_true_iff, bool_decide_eq_false in H. exact H.
Qed.
Lemma play_covered w0 w n l w' n' : reachable denv w -> covered denv kcfg w0 w n -> forallb no_keeper l = true ->
  play (allowance denv kcfg) w n l = Some (w', n') -> covered denv kcfg w0 w' n'.
Proof.
  revert w n. induction l as [|a l IH]; simpl; intros w n R C K; [intros [= <- <-]; exact C|].
  apply andb_true_iff in K as [K1 K2]. destruct (do w a) as [w1|] eqn:D; [|discriminate].
  assert (step denv w (event_of a) w1) as ST.
  { apply do_step; auto. apply (i_wf denv). eauto using inv_reachable, denv_ok. }
  apply IH; auto; [eapply reachable_step; eauto|]. econstructor; eauto using no_keeper_ok.
Qed.
Lemma play_tended w0 w n l w' n' : reachable denv w -> tended denv kcfg w0 w n -> forallb no_keeper l = true ->
  tend w l = true -> play (fun _ => settlement denv kcfg) w n l = Some (w', n') -> tended denv kcfg w0 w' n'.
Proof.
  revert w n. induction l as [|a l IH]; simpl; intros w n R C K T; [intros [= <- <-]; exact C|].
  apply andb_true_iff in K as [K1 K2]. apply andb_true_iff in T as [T1 T2].
  destruct (do w a) as [w1|] eqn:D; [|discriminate].
  assert (step denv w (event_of a) w1) as ST.
  { apply do_step; auto. apply (i_wf denv). eauto using inv_reachable, denv_ok. }
  apply IH; auto; [eapply reachable_step; eauto|]. econstructor; eauto using no_keeper_ok.
  destruct a as [cx c| |]; simpl; auto. destruct c; simpl; auto; intros E; simpl in T1;
    rewrite E, N.eqb_refl in T1; simpl in T1; now apply N.eqb_eq.
Qed.
Definition spent (f : world -> event -> N) (l : list act) : N :=
  match play f (at_end [init_config]) 0 l with Some (_, n) => n | None => 0 end.
Lemma first_runs : runs [init_config] = true.
Proof. vm_compute. reflexivity. Qed.
Lemma first_step : exists cx a, step denv world0
  (Do cx (CInitializeConfig a slasher gov 1000 5000 100 docs)) (at_end [init_config]) /\ ic_config a = kcfg.
Proof.
  pose proof (at_end_step [] init_config first_runs) as H. change (at_end []) with world0 in H. unfold event_of in H. unfold init_config at 1 in H.
  do 2 eexists. split; [exact H|reflexivity].
Qed.
Lemma spent_play f l : runs (init_config :: l) = true ->
  play f (at_end [init_config]) 0 l = Some (at_end (init_config :: l), spent f l).
Proof.
  intros R. unfold spent. assert (play none_in (at_end [init_config]) 0 l = Some (at_end (init_config :: l), 0)) as P.
  { pose proof first_runs as F. unfold runs, at_end, after in *. change (init_config :: l) with ([init_config] ++ l) in *.
    rewrite play_app in *. destruct (play none_in world0 0 [init_config]) as [[w n]|]; [|discriminate].
    cbv iota beta in *. rewrite (play_none w n l) in *. destruct (play none_in w 0 l) as [[w2 n2]|] eqn:E; [|discriminate].
    pose proof (play_none w 0 l) as Q. rewrite E in Q. exact Q. }
  pose proof (play_world f none_in (at_end [init_config]) 0 0 l) as W. rewrite P in W.
  destruct (play f (at_end [init_config]) 0 l) as [[w n]|]; congruence.
Qed.
Lemma script_covered l : runs (init_config :: l) = true -> forallb no_keeper l = true ->
  covered denv kcfg (at_end [init_config]) (at_end (init_config :: l)) (spent (allowance denv kcfg) l).
Proof.
  intros R K. eapply play_covered; [apply at_end_reachable, first_runs|constructor|exact K|]. now apply spent_play.
Qed.
Lemma script_tended l : runs (init_config :: l) = true -> forallb no_keeper l = true -> tend (at_end [init_config]) l = true ->
  tended denv kcfg (at_end [init_config]) (at_end (init_config :: l)) (spent (fun _ => settlement denv kcfg) l).
Proof.
  intros R K T. eapply play_tended; [apply at_end_reachable, first_runs|constructor|exact K|exact T|]. now apply spent_play.
Qed.
Definition tale : list act := tl (firstn 13 story).
(* After 13 events 777777 lamports are owed and 777778 have come in; the vault was settled once. *)
Example C18_case : covered denv kcfg (at_end [init_config]) (at_end (init_config :: tale)) (10 ^ 18) /\
  tended denv kcfg (at_end [init_config]) (at_end (init_config :: tale)) 1 /\
  claims denv (at_end (init_config :: tale)) kcfg = 777777 /\
  funds denv (at_end (init_config :: tale)) kcfg = funds denv (at_end [init_config]) kcfg + 777778.
Proof.
  split; [|split].
  - replace (10 ^ 18) with (spent (allowance denv kcfg) tale) by (vm_compute; reflexivity).
    apply script_covered; vm_compute; reflexivity.
  - replace 1 with (spent (fun _ => settlement denv kcfg) tale) by (vm_compute; reflexivity).
    apply script_tended; vm_compute; reflexivity.
  - vm_compute. auto.
Qed.
(* After the staker's harvest only the validator's claim is left. *)
Example C18_new_claims_case : let l := firstn 8 story in
  reachable denv (at_end l) /\ cfg_last (cfg_of (at_end l) kcfg) = lam (get (at_end l) kcfg) /\
  claims denv (at_end l) kcfg = 277777.
Proof. split; [apply at_end_reachable; vm_compute; reflexivity|]. vm_compute. auto. Qed.

(** ** C19: without the rounding allowance it fails *)
(** Four harvests of the pool at 0.75 lamport each pay nothing, but credit three
    lamports' worth to the stakers. *)
Definition drips : list act :=
  tl setup ++ map harvest_holder [3 * 10 ^ 14; 6 * 10 ^ 14; 9 * 10 ^ 14; 12 * 10 ^ 14].
Theorem C19_exact_solvency_refuted :
  ~ (forall e cx a s au cd b sy du w0 w w' n, env_ok e -> reachable e w0 ->
       step e w0 (Do cx (CInitializeConfig a s au cd b sy du)) w -> tended e (ic_config a) w w' n ->
       claims e w' (ic_config a) + funds e w (ic_config a) <= funds e w' (ic_config a)).
Proof.
  intros H. destruct first_step as (cx & a & ST & E).
  specialize (H denv cx a slasher gov 1000 5000 100 docs world0 _ (at_end (init_config :: drips)) (spent (fun _ => settlement denv kcfg) drips)
    denv_ok world0_reachable ST). rewrite E in H.
  assert (claims denv (at_end (init_config :: drips)) kcfg = 2) as C by (vm_compute; reflexivity).
  assert (funds denv (at_end (init_config :: drips)) kcfg = funds denv (at_end [init_config]) kcfg) as F by (vm_compute; reflexivity).
  rewrite C, F in H. specialize (H ltac:(apply script_tended; vm_compute; reflexivity)). lia.
Qed.
Print Assumptions C19_exact_solvency_refuted.

(** ** C37: with the config itself as keeper it fails *)
(** The withdraw authority of validator 1 is the config and so is the keeper: the
    100 lamports taken from the keeper reappear as reward of the validator, are
    seen as fresh income, and are credited to an effective amount that has just
    been raised. *)
Definition heist : list act :=
  tl setup ++ [Set_ vote1 (DVote kcfg); sync_auth vote1; Pay carol kcfg 360;
    harvest_sol nat1 bob vote1 kcfg vote2 dave (Some kcfg) (View vote2 bob 100000000)].
Lemma script_tally f l : runs (init_config :: l) = true ->
  tally denv f (at_end [init_config]) (at_end (init_config :: l)) (spent f l).
Proof.
  intros R. eapply play_tally; [|constructor|now apply spent_play].
  apply inv_reachable; [apply denv_ok|apply at_end_reachable, first_runs].
Qed.
Theorem C37_any_keeper_refuted :
  ~ (forall e cx a s au cd b sy du w0 w w' n, env_ok e -> reachable e w0 ->
       step e w0 (Do cx (CInitializeConfig a s au cd b sy du)) w -> tally e (allowance e (ic_config a)) w w' n ->
       claims e w' (ic_config a) + funds e w (ic_config a) <= funds e w' (ic_config a) + n / 10 ^ 18).
Proof.
  intros H. destruct first_step as (cx & a & ST & E).
  specialize (H denv cx a slasher gov 1000 5000 100 docs world0 _ (at_end (init_config :: heist)) (spent (allowance denv kcfg) heist)
    denv_ok world0_reachable ST). rewrite E in H.
  specialize (H ltac:(apply script_tally; vm_compute; reflexivity)).
  assert (claims denv (at_end (init_config :: heist)) kcfg = 307) as C by (vm_compute; reflexivity).
  assert (funds denv (at_end (init_config :: heist)) kcfg = funds denv (at_end [init_config]) kcfg + 200) as F by (vm_compute; reflexivity).
  assert (spent (allowance denv kcfg) heist = 0) as Z by (vm_compute; reflexivity).
  rewrite C, F, Z in H. change (0 / 10 ^ 18) with 0 in H. lia.
Qed.
Print Assumptions C37_any_keeper_refuted.
(** Stake authorities may be anything: C18 has no condition on them. *)
Theorem C37_any_authority e cx a s au cd b sy du w0 w w' n : env_ok e -> reachable e w0 ->
  step e w0 (Do cx (CInitializeConfig a s au cd b sy du)) w ->
  covered e (ic_config a) w w' n ->
  claims e w' (ic_config a) <= funds e w' (ic_config a) - funds e w (ic_config a) + n / 10 ^ 18.
Proof.
  intros OK R ST CV. pose proof (C18_solvency _ _ _ _ _ _ _ _ _ _ _ _ _ OK R ST CV). lia.
Qed.
Print Assumptions C37_any_authority.
(* The same history with an ordinary keeper does not go through: the validator's reward would be paid twice. *)
Example C37_case : let l := tl setup ++ [Set_ vote1 (DVote kcfg); sync_auth vote1; Pay carol kcfg 360] in
  authority (v_del (val_of (at_end (init_config :: l)) kval1)) = kcfg /\
  covered denv kcfg (at_end [init_config]) (at_end (init_config :: l)) 0 /\
  claims denv (at_end (init_config :: l)) kcfg = 360 /\
  runs (init_config :: l ++ [harvest_sol nat1 bob vote1 kcfg vote2 dave (Some carol) (View vote2 bob 100000000)]) = false.
Proof.
  intros l. split; [vm_compute; reflexivity|]. split; [|vm_compute; auto].
  replace 0 with (spent (allowance denv kcfg) l) by (vm_compute; reflexivity).
  apply script_covered; vm_compute; reflexivity.
Qed.

(** ** C24: what the other settling instructions pay *)
(** [pays e ck ks pool r w w']: every account of [ks] is paid its pending reward,
    from the config to its authority, and [r] goes from the pool to the vault. *)
Theorem C24_staking_pays e cx a n w w' c : env_ok e -> reachable e w -> run e cx c w = Ok w' ->
  c = CValidatorStakeTokens a n \/ c = CSolStakerStakeTokens a n -> forall k,
  let ck := st_config a in
  let r := since (holder_acc e w' ck) (holder_acc e w ck) * deposit e w ck / 10 ^ 18 in
  lam (get w' k) + (if k =? ck then pending e w ck (st_stake a) else 0) + (if k =? st_pool a then r else 0) =
  lam (get w k) + share e w ck k (st_stake a) + (if k =? e_vault e ck then r else 0).
Proof.
  intros OK R RUN E k. apply run_ok in RUN as (_ & D & T & _). pose proof (i_sane _ _ (inv_reachable _ _ OK R)) as S.
  assert (staked_any e cx a n w w') as H by (destruct E as [-> | ->]; inversion D; auto).
  destruct (staked_pays _ _ _ _ _ _ OK S (reach_acc_ok _ _ _ OK R) H T) as (_ & _ & M & _).
  specialize (M k). unfold pool_paid in M. cbn [sum_over] in M. rewrite !N.add_0_r in M. exact M.
Qed.
Print Assumptions C24_staking_pays.
Theorem C24_unstaking_pays e cx a n w w' : env_ok e -> reachable e w -> run e cx (CUnstakeTokens a n) w = Ok w' -> forall k,
  let ck := un_config a in
  let r := since (holder_acc e w' ck) (holder_acc e w ck) * deposit e w ck / 10 ^ 18 in
  lam (get w' k) + (if k =? ck then pending e w ck (un_stake a) else 0) + (if k =? un_pool a then r else 0) =
  lam (get w k) + share e w ck k (un_stake a) + (if k =? e_vault e ck then r else 0).
Proof.
  intros OK R RUN k. apply run_ok in RUN as (_ & D & T & _). pose proof (i_sane _ _ (inv_reachable _ _ OK R)) as S.
  inversion D; subst.
  destruct (unstaked_pays _ _ _ _ _ _ OK S (reach_acc_ok _ _ _ OK R) ltac:(eassumption) T) as (_ & _ & M & _).
  specialize (M k). unfold pool_paid in M. cbn [sum_over] in M. rewrite !N.add_0_r in M. exact M.
Qed.
Print Assumptions C24_unstaking_pays.
(** Slashing, overriding and moving pay pending rewards too, and nothing else. *)
Definition pays_only (e : env) (ck : pubkey) (ks : list pubkey) (w w' : world) : Prop := forall k,
  lam (get w' k) + (if k =? ck then sum_over (pending e w ck) ks else 0) = lam (get w k) + sum_over (share e w ck k) ks.
Lemma moves_only e ck ks w w' : moves e ck ks ck 0 w w' -> pays_only e ck ks w w'.
Proof. intros M k. specialize (M k). destruct (k =? ck), (k =? e_vault e ck); lia. Qed.
Theorem C24_slashing_pays e cx a n w w' c : env_ok e -> reachable e w -> run e cx c w = Ok w' ->
  c = CSlashValidatorStake a n \/ c = CSlashSolStakerStake a n ->
  pays_only e (sl_config a) [sl_stake a] w w'.
Proof.
  intros OK R RUN E. apply run_ok in RUN as (_ & D & T & _). pose proof (i_sane _ _ (inv_reachable _ _ OK R)) as S.
  assert (slashed_any e cx a n w w') as H by (destruct E as [-> | ->]; inversion D; auto).
  destruct (slashed_pays _ _ _ _ _ _ OK S (reach_acc_ok _ _ _ OK R) H T) as [_ M]. now apply moves_only.
Qed.
Print Assumptions C24_slashing_pays.
Theorem C24_override_pays e cx a n w w' : env_ok e -> reachable e w -> run e cx (CValidatorOverride a n) w = Ok w' ->
  pays_only e (ov_config a) [ov_stake a] w w'.
Proof.
  intros OK R RUN. apply run_ok in RUN as (_ & D & T & _). inversion D; subst.
  destruct (overridden_pays _ _ _ _ _ _ (reach_acc_ok _ _ _ OK R) ltac:(eassumption) T) as [_ M]. now apply moves_only.
Qed.
Print Assumptions C24_override_pays.
Theorem C24_move_pays e cx a n w w' : env_ok e -> reachable e w -> run e cx (CSolStakerMoveTokens a n) w = Ok w' ->
  pays_only e (mv_config a) [mv_source a; mv_dest a] w w'.
Proof.
  intros OK R RUN. apply run_ok in RUN as (_ & D & T & _). inversion D; subst.
  destruct (moved_pays _ _ _ _ _ _ (reach_acc_ok _ _ _ OK R) ltac:(eassumption) T) as [_ M]. now apply moves_only.
Qed.
Print Assumptions C24_move_pays.
(* A deposit by carol's wallet, paid 722222 of pending rewards to bob and 2500 * 2 lamports from the pool to the vault. *)
Example C24_settling_cases : let l := setup ++ [Pay carol kcfg 1000000] in
  let mv := setup ++ [init_sol nat2 vote2 bob 5000; Pay carol kcfg 1000000] in
  let st := Call (cx [alice] 0 None (2 * 10 ^ 18)) (CSolStakerStakeTokens (stake_accts_of ksol1 bob atok alice) 1000) in
  runs (l ++ [st]) = true /\ lam (get (at_end (l ++ [st])) bob) = lam (get (at_end l) bob) + 722222 /\
  lam (get (at_end (l ++ [st])) kpda) = lam (get (at_end l) kpda) + 5000 /\
  runs (l ++ [unstake ksol1 bob btok 400 5000 (2 * 10 ^ 18)]) = true /\
  lam (get (at_end (l ++ [unstake ksol1 bob btok 400 5000 (2 * 10 ^ 18)])) bob) = lam (get (at_end l) bob) + 722222 /\
  runs (l ++ [donate 60; slash_sol nat1 bob 50]) = true /\
  lam (get (at_end (l ++ [donate 60; slash_sol nat1 bob 50])) bob) = lam (get (at_end l) bob) + 722222 /\
  runs (l ++ [override vote1 alice 50]) = true /\
  lam (get (at_end (l ++ [override vote1 alice 50])) alice) = lam (get (at_end l) alice) + 277777 /\
  runs (mv ++ [move nat1 nat2 bob 800]) = true /\
  lam (get (at_end (mv ++ [move nat1 nat2 bob 800])) bob) = lam (get (at_end mv) bob) + 722222.
Proof. vm_compute. auto 20. Qed.
