(** Instructions abort in two situations only, and both can be reached. *)
From Verif Require Import Base Types Layout Instr Math External Processor Runtime History Spec SpecReward SpecSolvency SpecLive SpecPanic
  WorldLemmas Effects Handlers Evolve Sane Wf Totals Arith Nets Caps Stakers Deposits Inv Demo PropState PropReward PropSolvency PropLive Live Panics.

(** ** C53: what can abort *)
Lemma run_panic e cx c w : run e cx c w = Panic -> handler e cx c w = Panic.
Proof.
  unfold run. intros H. apply bind_panic in H as [H|(w' & _ & H)]; [auto|]. exfalso. unfold runtime_check in H. nope H.
Qed.
(** Unless it is asked to pay the config itself, an instruction aborts only when
    it synchronises the authority of a validator stake that does not exist, or
    when the config cannot pay the claims it settles and stay rent exempt. *)
Theorem C53_panics_only e cx c w : env_ok e -> reachable e w -> total_lamports w < 2 ^ 64 ->
  (forall k, paid_by c k -> k <> config_of c) -> run e cx c w = Panic ->
  (exists a, c = CValidatorSyncAuthority a /\ forall v, dat (get w (sy_stake a)) <> DVal v) \/
  ~ affordable e w (config_of c) (settled_by e cx w c).
Proof. intros OK R T PB H. apply run_panic in H. apply panics_only; auto using inv_reachable. Qed.
Print Assumptions C53_panics_only.
(** The decoder and the account list never abort, whatever the bytes. *)
Theorem C53_entry_point e cx ks data w : process_instruction e cx ks data w = Panic ->
  exists i c, unpack data = Ok i /\ accounts_of e ks i = Ok c /\ run e cx c w = Panic.
Proof.
  unfold process_instruction. intros H. apply bind_panic in H as [H|(i & EI & H)].
  - exfalso. unfold unpack, amount_ix in H. destruct data as [|t r]; [discriminate|].
    repeat match type of H with (match ?x with _ => _ end) = _ => destruct x; try discriminate end.
  - apply bind_panic in H as [H|(c & EC & H)]; [|eauto 6]. exfalso. destruct i; unfold accounts_of, need in H; nope H.
Qed.
Print Assumptions C53_entry_point.

(** Both cases are reachable. Four settlements of the rewards pool that each round
    down leave the staker with a claim of two lamports against a config that has
    none to spare: the staker's own [UnstakeTokens] aborts. *)
Definition wet : world := at_end (init_config :: drips).
Definition dry_unstake : unstake_accts := UnstakeA kcfg kpool kptok ksol1 bob kvtok kpda kvhr kmint btok (e_token denv).
Theorem C53_unstake_aborts_refuted : exists e cx a n w,
  env_ok e /\ reachable e w /\ wf_ctx e cx /\ total_lamports w < 2 ^ 64 /\
  (forall k, paid_by (CUnstakeTokens a n) k -> k <> un_config a) /\
  (exists d, stake_of e w (un_config a) (un_stake a) = Some d /\ un_authority a = authority d /\ n <= staked d * 5000 / 10000) /\
  run e cx (CUnstakeTokens a n) w = Panic.
Proof.
  exists denv, (cx [bob] 5000 None (12 * 10 ^ 14)), dry_unstake, 500, wet.
  split; [apply denv_ok|]. split; [apply at_end_reachable; vm_compute; reflexivity|].
  split; [apply ctx_ok_wf; vm_compute; reflexivity|]. split; [calc|]. split; [intros k ->; calc|].
  split; [exists (s_del (sol_of wet ksol1)); calcs|calc].
Qed.
Print Assumptions C53_unstake_aborts_refuted.
(** An instruction that succeeds could pay; a harvest of SOL-staker rewards is
    left out, as it need not settle every account it may settle. *)
Theorem C53_success_affordable e cx c w w' cf : env_ok e -> reachable e w -> wf_ctx e cx -> wf_call c -> run e cx c w = Ok w' ->
  config_at e w (config_of c) cf -> (forall a, c <> CHarvestSolStakerRewards a) ->
  (forall k d, settled_by e cx w c k -> stake_of e w (config_of c) k = Some d -> authority d <> config_of c) ->
  affordable e w (config_of c) (settled_by e cx w c).
Proof.
  intros OK R WC WL RUN CA NH NA.
  assert (step e w (Do cx c) w') as ST by (constructor; auto).
  assert (reachable e w') as R' by (eapply reachable_step; eauto).
  destruct (C15_config_identity e w [Do cx c] w' _ _ OK R (steps_snoc e w [] w _ w' (steps_nil e w) ST) CA) as (cf' & CA' & _).
  pose proof (C35_rent_exempt _ _ _ _ OK R' CA') as RE. pose proof (C35_rent_exempt _ _ _ _ OK R CA) as RE0.
  assert (config_of c <> e_vault e (config_of c)) as NV.
  { intros E. destruct (sane_cfg _ _ (i_sane _ _ (inv_reachable _ _ OK R)) _ _ CA) as (_ & _ & _ & _ & V).
    rewrite <- E in V. destruct CA; congruence. }
  assert (forall ks, NoDup ks -> (forall k, settled_by e cx w c k <-> In k ks) ->
    lam (get w' (config_of c)) + sum_over (pending e w (config_of c)) ks <=
      lam (get w (config_of c)) + sum_over (share e w (config_of c) (config_of c)) ks ->
    affordable e w (config_of c) (settled_by e cx w c)) as DONE.
  { intros ks ND IN L. exists ks. split; [auto|]. split; [apply IN|].
    assert (forall l, (forall k, In k l -> settled_by e cx w c k) -> sum_over (share e w (config_of c) (config_of c)) l = 0) as Z.
    { intros l. induction l as [|k l IH]; intros A; cbn [sum_over]; auto. rewrite IH by (intros; apply A; simpl; auto).
      unfold share. destruct (stake_of e w (config_of c) k) as [d|] eqn:E; [|auto].
      destruct (N.eqb_spec (authority d) (config_of c)) as [X|]; auto. exfalso. apply (NA k d); auto. apply A; simpl; auto. }
    rewrite (Z ks) in L by (intros; now apply IN). lia. }
  assert (forall P : Prop, (forall k, settled_by e cx w c k <-> False) -> affordable e w (config_of c) (settled_by e cx w c)) as NONE.
  { intros _ F. exists []. split; [constructor|]. split; [intros k S; now apply F in S|]. cbn [sum_over]. exact RE0. }
  assert (forall x : pubkey, NoDup [x]) as N1 by (intros; apply NoDup_singleton).
  destruct c; cbn [config_of settled_by] in *; try (apply (NONE True); tauto).
  all: cbn [sum_over] in DONE.
  - apply (DONE [st_stake a]); auto; [simpl; intuition congruence|].
    pose proof (C24_staking_pays _ _ _ _ _ _ _ OK R RUN (or_introl eq_refl) (st_config a)) as M. cbv zeta in M.
    rewrite N.eqb_refl in M. destruct (N.eqb_spec (st_config a) (e_vault e (st_config a))); [contradiction|]. cbn [sum_over]. lia.
  - destruct (C24_validator_harvest_pays _ _ _ _ _ OK R RUN) as (d & D & M). specialize (M (hv_config a)). rewrite N.eqb_refl in M.
    apply (DONE [hv_stake a]); auto; [simpl; intuition congruence|]. cbn [sum_over]. unfold share. rewrite D.
    rewrite N.eqb_sym in M. destruct (authority d =? hv_config a); lia.
  - apply (DONE [sl_stake a]); auto; [simpl; intuition congruence|].
    pose proof (C24_slashing_pays _ _ _ _ _ _ _ OK R RUN (or_introl eq_refl) (sl_config a)) as M. rewrite N.eqb_refl in M. lia.
  - apply (DONE [st_stake a]); auto; [simpl; intuition congruence|].
    pose proof (C24_staking_pays _ _ _ _ _ _ _ OK R RUN (or_intror eq_refl) (st_config a)) as M. cbv zeta in M.
    rewrite N.eqb_refl in M. destruct (N.eqb_spec (st_config a) (e_vault e (st_config a))); [contradiction|]. cbn [sum_over]. lia.
  - exfalso. eapply NH; eauto.
  - apply (DONE [un_stake a]); auto; [simpl; intuition congruence|].
    pose proof (C24_unstaking_pays _ _ _ _ _ _ OK R RUN (un_config a)) as M. cbv zeta in M.
    rewrite N.eqb_refl in M. destruct (N.eqb_spec (un_config a) (e_vault e (un_config a))); [contradiction|]. cbn [sum_over]. lia.
  - apply (DONE [sl_stake a]); auto; [simpl; intuition congruence|].
    pose proof (C24_slashing_pays _ _ _ _ _ _ _ OK R RUN (or_intror eq_refl) (sl_config a)) as M. rewrite N.eqb_refl in M. lia.
  - apply (DONE [mv_source a; mv_dest a]); [|simpl; intuition congruence|].
    + pose proof (run_ok _ _ _ _ _ RUN) as (_ & D & _). inversion D; subst. destruct H0. 
      apply NoDup_cons. split; [|apply N1]. rewrite elem_of_list_singleton. auto.
    + pose proof (C24_move_pays _ _ _ _ _ _ OK R RUN (mv_config a)) as M. rewrite N.eqb_refl in M. lia.
  - apply (DONE [ov_stake a]); auto; [simpl; intuition congruence|].
    pose proof (C24_override_pays _ _ _ _ _ _ OK R RUN (ov_config a)) as M. rewrite N.eqb_refl in M. lia.
Qed.
Print Assumptions C53_success_affordable.
(* Bob's unstaking in the story: the event succeeds and Bob is not the config. *)
Example C53_affordable_case : let w := at_end (firstn 14 story) in
  runs (firstn 15 story) = true /\ config_at denv w kcfg (cfg_of w kcfg) /\
  stake_of denv w kcfg ksol2 = Some (s_del (sol_of w ksol2)) /\ authority (s_del (sol_of w ksol2)) <> kcfg /\
  exists c acts, nth 14 story init_config = Call c (CUnstakeTokens acts 400) /\ un_stake acts = ksol2.
Proof. intros w. do 4 (split; [calcs|]). do 2 eexists. split; reflexivity. Qed.

(** The only staker cannot be helped by lamports given to the config: they count as
    rewards and raise the claim with them. *)
Definition alone : list act :=
  [init_config; init_val vote1 alice; init_sol nat1 vote1 bob 1000; stake_sol nat1 bob btok bob 2000 0] ++
  map harvest_holder [3 * 10 ^ 14; 6 * 10 ^ 14; 9 * 10 ^ 14; 12 * 10 ^ 14].
Definition give (w : world) (n : N) : world :=
  setl (setl w carol (lam (get w carol) - n)) kcfg (lam (get w kcfg) + n).
Lemma give_views w n : lam (get (give w n) kcfg) = lam (get w kcfg) + n /\
  (forall k, dat (get (give w n) k) = dat (get w k) /\ own (get (give w n) k) = own (get w k)) /\
  (forall e ck k, stake_of e (give w n) ck k = stake_of e w ck k) /\
  (forall e ck, holder_acc e (give w n) ck = holder_acc e w ck).
Proof.
  unfold give. generalize kcfg as a, carol as b. intros a b.
  assert (forall k, dat (get (setl (setl w b (lam (get w b) - n)) a (lam (get w a) + n)) k) = dat (get w k) /\
    own (get (setl (setl w b (lam (get w b) - n)) a (lam (get w a) + n)) k) = own (get w k)) as V by (intros; ws; auto).
  split; [ws; now rewrite N.eqb_refl|]. split; [exact V|]. split.
  - intros e ck k. unfold stake_of, stake_in. destruct (V k) as [V1 V2]. now rewrite ?V1, ?V2.
  - intros e ck. unfold holder_acc. destruct (V (e_holder e (e_vault e ck))) as [V1 V2]. now rewrite ?V1, ?V2.
Qed.
Definition given (n : N) : world := give (at_end alone) n.
Lemma given_reachable n : n <= 10 ^ 9 -> reachable denv (given n).
Proof.
  intros L. assert (reachable denv (at_end alone)) as R by (apply at_end_reachable; vm_compute; reflexivity).
  apply (reachable_step denv (at_end alone) Other); [exact R|]. apply step_other.
  assert (lam (get (at_end alone) carol) = 10 ^ 9) as LC by (vm_compute; reflexivity).
  assert (lam (get (at_end alone) kcfg) = 2227200) as LK by (vm_compute; reflexivity).
  assert (own (get (at_end alone) carol) <> e_prog denv) as O by (vm_compute; discriminate).
  unfold given. generalize dependent (at_end alone). intros w R LC LK O.
  apply rely_pay; [apply (i_wf _ _ (inv_reachable _ _ denv_ok R))|exact O|apply denv_not_pda; calc|calc|rewrite LC; exact L|].
  rewrite LK. clear - L. lia.
Qed.
Lemma short_claim n : n <= 10 ^ 9 ->
  n < since ((0 + (2227200 + n - 2227200) * 10 ^ 18 / 1300) mod 2 ^ 128) 0 * 1300 / 10 ^ 18 + 2.
Proof.
  intros L. replace (2227200 + n - 2227200) with n by lia. rewrite N.add_0_l.
  change (10 ^ 9) with 1000000000 in L. change (10 ^ 18) with 1000000000000000000.
  change (2 ^ 128) with 340282366920938463463374607431768211456.
  assert (n * 1000000000000000000 / 1300 < 2 ^ 128) as B.
  { apply N.le_lt_trans with (n * 1000000000000000000); [apply N.div_le_upper_bound; [discriminate|lia]|]. lia. }
  rewrite N.mod_small by exact B. unfold since. change (Z.of_N 0) with 0%Z. rewrite Z.sub_0_r.
  set (q := n * 1000000000000000000 / 1300) in *.
  rewrite Z.mod_small; [|split; [apply N2Z.is_nonneg|]; change (2 ^ 128)%Z with (Z.of_N 340282366920938463463374607431768211456); now apply N2Z.inj_lt].
  rewrite N2Z.id. unfold q in *. clear q.
  pose proof (N.div_mod (n * 1000000000000000000) 1300 ltac:(lia)) as D1. pose proof (N.mod_lt (n * 1000000000000000000) 1300 ltac:(lia)) as M1.
  set (q := n * 1000000000000000000 / 1300) in *. clearbody q.
  pose proof (N.div_mod (q * 1300) 1000000000000000000 ltac:(lia)) as D2. pose proof (N.mod_lt (q * 1300) 1000000000000000000 ltac:(lia)) as M2.
  set (r := q * 1300 / 1000000000000000000) in *. clearbody r. lia.
Qed.
Lemma given_short n : n <= 10 ^ 9 -> lam (get (given n) kcfg) < pending denv (given n) kcfg ksol1 + e_rent denv CONFIG_LEN.
Proof.
  intros L. unfold given.
  assert (lam (get (at_end alone) kcfg) = 2227200) as LK by (vm_compute; reflexivity).
  assert (e_rent denv CONFIG_LEN = 2227200) as RK by (vm_compute; reflexivity).
  assert (exists d, stake_of denv (at_end alone) kcfg ksol1 = Some d /\ holder_claim denv (at_end alone) kcfg d = 2 /\
    last_stake d = 0 /\ effective d = 1300) as (d & SD & HC & E4 & E5).
  { exists (s_del (sol_of (at_end alone) ksol1)). calcs. }
  assert (exists c, dat (get (at_end alone) kcfg) = DConfig c /\ cfg_effective c = 1300 /\ cfg_acc c = 0 /\ cfg_last c = 2227200)
    as (c & CD & E1 & E2 & E3).
  { exists (cfg_of (at_end alone) kcfg). calcs. }
  generalize dependent (at_end alone). intros w LK SD HC CD.
  destruct (give_views w n) as (V1 & V2 & V3 & V4).
  unfold pending. rewrite V3, SD, (proj1 (V2 kcfg)), CD. unfold stake_claim, holder_claim, acc_now in *.
  rewrite V1, V4, LK, HC, RK, E1, E2, E3, E4, E5. change (1300 =? 0) with false. cbv iota.
  pose proof (short_claim n L) as SC. 
  set (x := since _ _ * 1300 / 10 ^ 18) in *. clearbody x. clear - SC. lia.
Qed.
Theorem C53_gifts_do_not_help_refuted n cx a m : n <= 10 ^ 9 -> wf_ctx denv cx -> m < 2 ^ 64 ->
  un_config a = kcfg -> un_stake a = ksol1 -> forall w', run denv cx (CUnstakeTokens a m) (given n) <> Ok w'.
Proof.
  intros L WC LM EC ES w' RUN. pose proof (given_reachable n L) as R. pose proof (given_short n L) as SH.
  destruct (give_views (at_end alone) n) as (_ & V2 & V3 & _).
  assert (exists d, stake_of denv (at_end alone) kcfg ksol1 = Some d /\ authority d <> kcfg) as (d0 & SG & NA).
  { exists (s_del (sol_of (at_end alone) ksol1)). calcs. }
  assert (exists c, config_at denv (at_end alone) kcfg c) as [c [CO CD]] by (exists (cfg_of (at_end alone) kcfg); calcs).
  destruct (C53_success_affordable denv cx (CUnstakeTokens a m) (given n) w' c denv_ok R WC LM RUN) as (ks & ND & IN & A).
  - cbn [config_of]. rewrite EC. unfold given. split; [now rewrite (proj2 (V2 kcfg))|now rewrite (proj1 (V2 kcfg))].
  - discriminate.
  - cbn [config_of settled_by]. intros k d -> SK. unfold given in SK. rewrite V3, EC, ES, SG in SK. injection SK as <-. now rewrite EC.
  - cbn [config_of settled_by] in *. rewrite EC in A. pose proof (sum_over_in (pending denv (given n) kcfg) ks ksol1 (IN _ (eq_sym ES))). lia.
Qed.
Print Assumptions C53_gifts_do_not_help_refuted.
(** They do help when the vault's authority passes them on. *)
Example C53_donation_case : let w := at_end (alone ++ [Pay carol kpda 2; harvest_holder (12 * 10 ^ 14)]) in
  match run denv (cx [bob] 5000 None (12 * 10 ^ 14)) (CUnstakeTokens dry_unstake 500) w with Ok _ => True | _ => False end.
Proof. vm_compute. auto. Qed.
Theorem C53_sync_authority_aborts_refuted : exists e cx a w,
  env_ok e /\ reachable e w /\ wf_ctx e cx /\ (exists c, config_at e w (sy_config a) c) /\
  run e cx (CValidatorSyncAuthority a) w = Panic.
Proof.
  exists denv, (cx [] 0 None 0), (SyncAuthA kcfg kval2 vote2), (at_end [init_config; init_val vote1 alice]).
  split; [apply denv_ok|]. split; [apply at_end_reachable; vm_compute; reflexivity|].
  split; [apply ctx_ok_wf; vm_compute; reflexivity|]. split; [exists (cfg_of (at_end [init_config; init_val vote1 alice]) kcfg); calcs|calc].
Qed.
Print Assumptions C53_sync_authority_aborts_refuted.
