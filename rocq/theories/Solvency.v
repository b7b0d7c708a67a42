(** The rewards owed never outgrow the lamports that came in. *)
From Verif Require Import Base Types Layout Instr Math External Processor Runtime History Spec SpecReward SpecSolvency
  WorldLemmas Effects Handlers Evolve Sane Wf Totals Arith Nets Caps Stakers Deposits Inv Life Tokens Gov Flow
  Rewards Collect Pays Progress Demo PropState PropTokens PropAuth PropReward.

(** ** Wrapping differences *)
Lemma since_bound a b : since a b < 2 ^ 128.
Proof. unfold since. pose proof (Z.mod_pos_bound (Z.of_N a - Z.of_N b) (2 ^ 128) eq_refl). lia. Qed.
Lemma since_triangle a b c : since a c <= since a b + since b c.
Proof.
  unfold since. set (M := (2 ^ 128)%Z). assert (0 < M)%Z by reflexivity.
  pose proof (Z.mod_pos_bound (Z.of_N a - Z.of_N b) M ltac:(lia)) as B1.
  pose proof (Z.mod_pos_bound (Z.of_N b - Z.of_N c) M ltac:(lia)) as B2.
  replace (Z.of_N a - Z.of_N c)%Z with ((Z.of_N a - Z.of_N b) + (Z.of_N b - Z.of_N c))%Z by lia.
  rewrite Zplus_mod. set (x := ((Z.of_N a - Z.of_N b) mod M)%Z) in *. set (y := ((Z.of_N b - Z.of_N c) mod M)%Z) in *.
  pose proof (Z.mod_le (x + y) M ltac:(lia) ltac:(lia)). pose proof (Z.mod_pos_bound (x + y) M ltac:(lia)). lia.
Qed.
Lemma since_advance a x : since ((a + x) mod 2 ^ 128) a <= x.
Proof.
  unfold since. rewrite N2Z.inj_mod by lia. change (Z.of_N (2 ^ 128)) with (2 ^ 128)%Z. set (M := (2 ^ 128)%Z).
  assert (0 < M)%Z by reflexivity. rewrite Zminus_mod_idemp_l, N2Z.inj_add.
  replace (Z.of_N a + Z.of_N x - Z.of_N a)%Z with (Z.of_N x) by lia.
  pose proof (Z.mod_le (Z.of_N x) M ltac:(lia) ltac:(lia)). pose proof (Z.mod_pos_bound (Z.of_N x) M ltac:(lia)). lia.
Qed.

(** ** Sums *)
Lemma sum_of_mono e w ck g g' : (forall d, g d <= g' d) -> sum_of e w ck g <= sum_of e w ck g'.
Proof.
  intros H. unfold sum_of. apply wsum_le; auto using sum_of_zero_default. intros k. destruct (stake_in e ck k _); auto.
Qed.
Lemma wsum_add f g w : (forall k, f k no_account = 0) -> (forall k, g k no_account = 0) ->
  wsum (fun k a => f k a + g k a) w = wsum f w + wsum g w.
Proof.
  intros F G. unfold wsum. induction w as [|i x m Hi IH] using map_ind; [now rewrite !map_fold_empty|].
  rewrite !map_fold_insert_L by (auto; intros; lia). rewrite IH. lia.
Qed.
Lemma wsum_scale f w x : wsum (fun k a => x * f k a) w = x * wsum f w.
Proof.
  unfold wsum. induction w as [|i a m Hi IH] using map_ind; [rewrite !map_fold_empty; lia|].
  rewrite !map_fold_insert_L by (auto; intros; lia). rewrite IH. lia.
Qed.
Lemma sum_of_add e w ck g g' : sum_of e w ck (fun d => g d + g' d) = sum_of e w ck g + sum_of e w ck g'.
Proof.
  unfold sum_of. rewrite <- wsum_add by auto using sum_of_zero_default.
  apply wsum_eq; intros k.
  - now rewrite !sum_of_zero_default.
  - apply (sum_of_zero_default e ck (fun d => g d + g' d)).
  - destruct (stake_in e ck k _); auto.
Qed.
Lemma sum_of_scale e w ck g x : sum_of e w ck (fun d => x * g d) = x * sum_of e w ck g.
Proof.
  unfold sum_of. rewrite <- wsum_scale. apply wsum_eq.
  - intros k. rewrite sum_of_zero_default. lia.
  - intros k. apply (sum_of_zero_default e ck (fun d => x * g d)).
  - intros k. destruct (stake_in e ck k _); lia.
Qed.
Definition value (g : delegation -> N) (o : option delegation) : N := match o with Some d => g d | None => 0 end.
Lemma sum_over_ext f g ks : (forall k, In k ks -> f k = g k) -> sum_over f ks = sum_over g ks.
Proof. induction ks as [|k ks IH]; simpl; intros H; [auto|]. rewrite IH, (H k) by auto. auto. Qed.
Lemma sum_of_list e w w' ck g ks : NoDup ks -> (forall x, ~ In x ks -> stake_of e w' ck x = stake_of e w ck x) ->
  sum_of e w' ck g + sum_over (fun k => value g (stake_of e w ck k)) ks =
  sum_of e w ck g + sum_over (fun k => value g (stake_of e w' ck k)) ks.
Proof.
  revert w. induction ks as [|k ks IH]; intros w ND H.
  - simpl. rewrite (sum_of_eq e w w'); [lia|]. auto.
  - apply NoDup_cons in ND as [NI ND]. set (w1 := put w k (get w' k)).
    assert (forall x, x <> k -> stake_of e w1 ck x = stake_of e w ck x) as E1.
    { intros x X. unfold stake_of, w1. rewrite get_put. destruct (N.eqb_spec k x); congruence. }
    assert (stake_of e w1 ck k = stake_of e w' ck k) as E2 by (unfold stake_of, w1; now rewrite get_put, N.eqb_refl).
    assert (forall x, ~ In x ks -> stake_of e w' ck x = stake_of e w1 ck x) as E3.
    { intros x X. destruct (N.eq_dec x k) as [->|]; [congruence|]. rewrite E1 by auto. apply H. intros [->|]; congruence. }
    specialize (IH w1 ND E3).
    assert (sum_over (fun x => value g (stake_of e w1 ck x)) ks = sum_over (fun x => value g (stake_of e w ck x)) ks) as E4.
    { apply sum_over_ext. intros x X. rewrite E1; auto. intros ->. apply NI. now apply elem_of_list_In. }
    rewrite E4 in IH.
    assert (sum_of e w1 ck g + value g (stake_of e w ck k) = sum_of e w ck g + value g (stake_of e w' ck k)) as E5.
    { rewrite <- E2. unfold sum_of. set (f := fun k a => match stake_in e ck k a with Some d => g d | None => 0 end).
      apply (wsum_upd f f (sum_of_zero_default e ck g) (sum_of_zero_default e ck g) w w1 k).
      intros x X. specialize (E1 x X). unfold stake_of in E1. unfold f. now rewrite E1. }
    cbn [sum_over]. lia.
Qed.

(** ** Claims against given accumulators, not rounded *)
Definition owing (a h : N) (d : delegation) : N :=
  since a (last_stake d) * effective d + since h (last_holder d) * staked d.
Definition owed (e : env) (w : world) (ck : pubkey) (a h : N) : N := sum_of e w ck (owing a h).
Lemma owing_claim a h d : 10 ^ 18 * claim_at a h (Some d) <= owing a h d.
Proof.
  unfold claim_at, owing. set (x := since a (last_stake d) * effective d). set (y := since h (last_holder d) * staked d).
  clearbody x y. pose proof (N.mul_div_le x (10 ^ 18) ltac:(lia)). pose proof (N.mul_div_le y (10 ^ 18) ltac:(lia)). lia.
Qed.
Lemma owed_claims e w ck c : dat (get w ck) = DConfig c ->
  10 ^ 18 * claims e w ck <= owed e w ck (acc_at w ck) (holder_acc e w ck).
Proof.
  intros D. unfold claims, owed. rewrite D, <- sum_of_scale. apply sum_of_mono. intros d.
  rewrite (acc_at_eq _ _ _ D). apply owing_claim.
Qed.
(** Bringing the staking accumulator up to date. *)
Lemma owed_sync e w ck c h : config_at e w ck c -> effsum e w -> lamp e w ->
  owed e w ck (acc_at w ck) h + 10 ^ 18 * cfg_last c <= owed e w ck (cfg_acc c) h + 10 ^ 18 * lam (get w ck).
Proof.
  intros C E L. destruct (L _ _ C) as [L1 _]. specialize (E _ _ C). destruct C as [_ D]. rewrite (acc_at_eq _ _ _ D).
  unfold acc_now. destruct (N.eqb_spec (cfg_effective c) 0) as [|NZ].
  - set (x := owed e w ck (cfg_acc c) h). clearbody x. lia.
  - set (l := lam (get w ck)) in *. set (x := (l - cfg_last c) * 10 ^ 18 / cfg_effective c).
    assert (x * cfg_effective c <= (l - cfg_last c) * 10 ^ 18) as X.
    { unfold x. rewrite N.mul_comm. apply N.mul_div_le. auto. }
    assert (owed e w ck ((cfg_acc c + x) mod 2 ^ 128) h <= owed e w ck (cfg_acc c) h + x * cfg_effective c) as Y.
    { rewrite E. unfold owed. rewrite <- sum_of_scale, <- sum_of_add. apply sum_of_mono. intros d. unfold owing.
      pose proof (since_triangle ((cfg_acc c + x) mod 2 ^ 128) (cfg_acc c) (last_stake d)) as T.
      pose proof (since_advance (cfg_acc c) x) as A.
      set (s1 := since _ _) in *. set (s2 := since _ _) in *. set (s3 := since (cfg_acc c) (last_stake d)) in *. set (s4 := since h _ * staked d).
      clearbody s1 s2 s3 s4. nia. }
    set (y1 := owed _ _ _ _ _) in *. set (y2 := owed _ _ _ _ _) in *. clearbody y1 y2.
    set (z := x * cfg_effective c) in *. clearbody z. lia.
Qed.
(** The vault's accumulator moving from [h] to [h']. *)
Lemma owed_holder e w ck a h h' :
  owed e w ck a h' <= owed e w ck a h + since h' h * sum_of e w ck staked.
Proof.
  unfold owed. rewrite <- sum_of_scale, <- sum_of_add. apply sum_of_mono. intros d. unfold owing.
  pose proof (since_triangle h' h (last_holder d)).
  set (s1 := since _ _) in *. set (s2 := since _ _) in *. set (s3 := since h _) in *. set (s4 := since a _ * _) in *.
  clearbody s1 s2 s3 s4. nia.
Qed.
(** A settlement of the accounts [ks]. *)
Record cleared (e : env) (ck : pubkey) (ks : list pubkey) (w w' : world) : Prop := {
  cl_nd : NoDup ks;
  cl_in : forall x, In x ks -> exists d', stake_of e w' ck x = Some d' /\
    last_stake d' = acc_at w ck /\ last_holder d' = holder_acc e w ck;
  cl_out : forall x, ~ In x ks -> stake_of e w' ck x = stake_of e w ck x;
}.
Lemma touched_cleared e ck ks w w' : touched e ck ks w w' -> cleared e ck ks w w'.
Proof. intros []. split; auto. intros x X. destruct (to_in x X) as (d & d' & _ & A & B). eauto. Qed.
Lemma owed_cleared e w w' ck ks c : dat (get w ck) = DConfig c -> cleared e ck ks w w' ->
  owed e w' ck (acc_at w ck) (holder_acc e w ck) + 10 ^ 18 * sum_over (pending e w ck) ks <=
  owed e w ck (acc_at w ck) (holder_acc e w ck).
Proof.
  intros D [ND TI TO]. pose proof (sum_of_list e w w' ck (owing (acc_at w ck) (holder_acc e w ck)) ks ND TO) as SL.
  assert (sum_over (fun k => value (owing (acc_at w ck) (holder_acc e w ck)) (stake_of e w' ck k)) ks = 0) as Z.
  { clear - TI. induction ks as [|k ks IH]; [auto|]. cbn [sum_over]. rewrite IH by (intros; apply TI; now right).
    destruct (TI k (or_introl eq_refl)) as (d' & S & L1 & L2). rewrite S. unfold value, owing.
    rewrite L1, L2, !since_same. lia. }
  assert (10 ^ 18 * sum_over (pending e w ck) ks <=
    sum_over (fun k => value (owing (acc_at w ck) (holder_acc e w ck)) (stake_of e w ck k)) ks) as P.
  { clear - D. induction ks as [|k ks IH]; [reflexivity|]. cbn [sum_over].
    rewrite (pending_eq _ _ _ _ _ D). set (y := sum_over (pending e w ck) ks) in *. clearbody y.
    set (z := sum_over _ _) in *. clearbody z. rewrite N.mul_add_distr_l. apply N.add_le_mono; [|exact IH].
    destruct (stake_of e w ck k); [apply owing_claim|reflexivity]. }
  unfold owed. rewrite Z in SL. lia.
Qed.
(** A whole settling instruction: [r] lamports come in from the rewards pool. *)
Lemma owed_settle e w w' ck ks c n : dat (get w ck) = DConfig c -> cleared e ck ks w w' ->
  funds e w ck + pool_paid e ck w w' <= funds e w' ck + sum_over (pending e w ck) ks ->
  sum_of e w' ck staked <= deposit e w ck + n ->
  owed e w' ck (acc_at w ck) (holder_acc e w' ck) + 10 ^ 18 * funds e w ck <=
  owed e w ck (acc_at w ck) (holder_acc e w ck) + 10 ^ 18 * funds e w' ck +
  (if holder_acc e w' ck =? holder_acc e w ck then 0
   else 10 ^ 18 + n * since (holder_acc e w' ck) (holder_acc e w ck)).
Proof.
  intros D C F B. pose proof (owed_cleared _ _ _ _ _ _ D C) as O1.
  pose proof (owed_holder e w' ck (acc_at w ck) (holder_acc e w ck) (holder_acc e w' ck)) as O2.
  unfold pool_paid in F. set (f := funds e w ck) in *. set (f' := funds e w' ck) in *.
  set (o1 := owed e w' ck _ (holder_acc e w' ck)) in *. set (o2 := owed e w' ck _ _) in *. set (o3 := owed e w ck _ _) in *.
  set (p := sum_over _ ks) in *. set (x := sum_of e w' ck staked) in *. clearbody f f' o1 o2 o3 p x.
  destruct (N.eqb_spec (holder_acc e w' ck) (holder_acc e w ck)) as [E|NE].
  - rewrite E, since_same in *. rewrite N.mul_0_l in *. change (0 / 10 ^ 18) with 0 in F. lia.
  - set (s := since _ _) in *. clearbody s.
    assert (s * x <= s * deposit e w ck + n * s) as Y.
    { rewrite (N.mul_comm n s), <- N.mul_add_distr_l. now apply N.mul_le_mono_l. }
    set (y := s * deposit e w ck) in *. clearbody y. set (z := n * s) in *. set (sx := s * x) in *. clearbody z sx.
    pose proof (N.div_mod y (10 ^ 18) ltac:(lia)) as DM. pose proof (N.mod_lt y (10 ^ 18) ltac:(lia)) as ML.
    set (q := y / 10 ^ 18) in *. set (m := y mod 10 ^ 18) in *. clearbody q m. lia.
Qed.
Lemma moves_funds e ck ks pool r w w' : moves e ck ks pool r w w' -> ck <> e_vault e ck ->
  (pool <> ck /\ pool <> e_vault e ck \/ r = 0) ->
  funds e w ck + r <= funds e w' ck + sum_over (pending e w ck) ks.
Proof.
  intros M NV P. pose proof (M ck) as M1. pose proof (M (e_vault e ck)) as M2. unfold funds.
  rewrite N.eqb_refl in M1, M2. rewrite (proj2 (N.eqb_neq _ _) NV) in M1. rewrite (proj2 (N.eqb_neq _ _) (not_eq_sym NV)) in M2.
  destruct P as [[P1 P2]| ->].
  - rewrite (proj2 (N.eqb_neq _ _) (not_eq_sym P1)) in M1. rewrite (proj2 (N.eqb_neq _ _) (not_eq_sym P2)) in M2. lia.
  - destruct (ck =? pool), (e_vault e ck =? pool); lia.
Qed.

(** ** Instructions on other configs, and other transactions *)
Lemma holder_acc_hupd e w w' ck0 ck h h' : env_ok e -> hupd w w' (e_holder e (e_vault e ck0)) h h' -> ck <> ck0 ->
  holder_acc e w' ck = holder_acc e w ck.
Proof.
  intros OK (_ & _ & U) NE. unfold holder_acc.
  assert (e_holder e (e_vault e ck) <> e_holder e (e_vault e ck0)) as NH.
  { intros E. apply NE. apply (ok_vault_inj _ OK). now apply (ok_holder_inj _ OK). }
  pose proof (fun x => U _ x NH) as V.
  destruct (dat (get w (e_holder e (e_vault e ck)))) eqn:D;
    try (rewrite (proj2 (V _) eq_refl); reflexivity);
    destruct (dat (get w' (e_holder e (e_vault e ck)))) eqn:D'; try reflexivity;
    pose proof (proj1 (V _) eq_refl); discriminate.
Qed.
Lemma holder_acc_other e cx w w' c ck : env_ok e -> sane e w -> did e cx w w' c -> ck <> call_config c ->
  holder_acc e w' ck = holder_acc e w ck.
Proof.
  intros OK S D NE. destruct (holds c) eqn:HC; [|apply holder_acc_hframe; eapply hframe_did; eauto].
  destruct D; simpl in HC; try discriminate; cbn [call_config] in NE.
  - destruct H as [c0 ? ? ? ? H]. destruct (hupd_staked _ _ _ _ _ _ H) as (h & U). eapply holder_acc_hupd; eauto.
  - destruct (hupd_held _ _ _ _ _ OK S H) as (h & U). eapply holder_acc_hupd; eauto.
  - destruct H as [c0 ? ? ? ? H]. destruct (hupd_staked _ _ _ _ _ _ H) as (h & U). eapply holder_acc_hupd; eauto.
  - destruct (hupd_unstaked _ _ _ _ _ _ H) as (h & last & _ & _ & U). eapply holder_acc_hupd; eauto.
Qed.
Lemma quiet_lam e cx w w' c : did e cx w w' c -> syncs c = false -> forall k, lam (get w' k) = lam (get w k).
Proof.
  intros D Q k. destruct D; try discriminate; destruct H; auto; subst w'; now ws.
Qed.
Lemma vault_kept e cx c w w' ck cf : env_ok e -> reachable e w -> config_at e w ck cf -> run e cx c w = Ok w' ->
  call_config c <> ck -> lam (get w (e_vault e ck)) <= lam (get w' (e_vault e ck)).
Proof.
  intros OK R C RUN NE. pose proof (inv_reachable _ _ OK R) as I. pose proof (i_sane _ _ I) as S.
  apply run_ok in RUN as (_ & D & _). destruct (syncs c) eqn:Y; [|rewrite (quiet_lam _ _ _ _ _ D Y); reflexivity].
  assert (exists c0, config_at e w (call_config c) c0) as [c0 C0].
  { destruct D; try discriminate Y; cbn [call_config]; destruct H; eexists; split; eauto. }
  destruct (flow_did _ _ _ _ _ OK S D (e_vault e ck)) as [_ F].
  destruct (N.le_gt_cases (lam (get w (e_vault e ck))) (lam (get w' (e_vault e ck)))) as [|LT]; [auto|].
  exfalso. destruct (F LT) as [E|[E|E]].
  - exact (config_not_vault _ _ _ _ ck S C0 E).
  - apply (ok_vault_inj _ OK) in E. congruence.
  - destruct (sane_cfg _ _ S _ _ C) as (_ & _ & _ & VO & _).
    destruct (prog_ids _ OK) as (_ & _ & P & _ & _ & _ & _ & P0). destruct VO; congruence.
Qed.

(** Outside the config's own settlements, claims on what was last seen do not grow. *)
Lemma owed_ext e w w' ck a h : (forall k, stake_of e w' ck k = stake_of e w ck k) -> owed e w' ck a h = owed e w ck a h.
Proof. intros E. apply sum_of_eq. auto. Qed.
Lemma owed_quiet e cx w w' c a h : env_ok e -> sane e w -> did e cx w w' c -> syncs c = false ->
  owed e w' (call_config c) a h = owed e w (call_config c) a h.
Proof.
  intros OK S D Q. destruct D; try discriminate; cbn [call_config].
  - apply owed_ext. eapply stake_of_created_config; eauto.
  - destruct (stake_of_created_val _ _ _ _ _ OK H) as ((d0 & SD & Z1 & Z2 & O) & R).
    eapply sum_of_created; eauto. unfold owing. rewrite Z1, Z2. lia.
  - destruct H. subst w'. apply owed_ext. intros k. unfold stake_of, stake_in. ws.
    destruct (N.eqb_spec (sa_account a0) k) as [<-|]; auto. rewrite Hc. now destruct (_ =? _).
  - destruct H. subst w'. apply owed_ext. intros k. unfold stake_of, stake_in. ws.
    destruct (N.eqb_spec (uc_config a0) k) as [<-|]; auto. rewrite Hc. now destruct (_ =? _).
  - destruct (stake_of_created_sol _ _ _ _ _ OK H) as ((d0 & SD & Z1 & Z2 & O) & R).
    eapply sum_of_created; eauto. unfold owing. rewrite Z1, Z2. lia.
  - destruct H. subst w'. apply sum_of_ext. intros k. unfold put_del, stake_of, stake_in. ws.
    destruct (N.eqb_spec (sy_stake a0) k) as [<-|]; auto. rewrite Hv. cbn. repeat (destruct (_ =? _)); reflexivity.
Qed.
Definition level (e : env) (w : world) (ck : pubkey) (c : config) : N :=
  owed e w ck (cfg_acc c) (holder_acc e w ck).
Definition seen (e : env) (w : world) (ck : pubkey) (c : config) : N :=
  cfg_last c + lam (get w (e_vault e ck)).
Lemma level_quiet e cx w w' c cf : env_ok e -> reachable e w -> run e cx c w = Ok w' -> syncs c = false ->
  config_at e w (call_config c) cf -> exists cf', config_at e w' (call_config c) cf' /\
    level e w' (call_config c) cf' = level e w (call_config c) cf /\
    seen e w' (call_config c) cf' = seen e w (call_config c) cf.
Proof.
  intros OK R RUN Q C. pose proof (i_sane _ _ (inv_reachable _ _ OK R)) as S.
  destruct (run_quiet _ _ _ _ _ _ OK S RUN Q C) as (cf' & C' & A & L & _). apply run_ok in RUN as (_ & D & _).
  exists cf'. split; [auto|]. unfold level, seen. rewrite A, L, (owed_quiet _ _ _ _ _ _ _ OK S D Q).
  rewrite (quiet_lam _ _ _ _ _ D Q). rewrite (holder_acc_hframe e w w'); [auto|].
  eapply hframe_did; eauto. destruct c; auto; discriminate.
Qed.
Lemma level_other e cx w w' c ck cf : env_ok e -> reachable e w -> run e cx c w = Ok w' -> call_config c <> ck ->
  config_at e w ck cf -> config_at e w' ck cf /\
    level e w' ck cf = level e w ck cf /\ seen e w ck cf <= seen e w' ck cf.
Proof.
  intros OK R RUN NE C. pose proof (i_sane _ _ (inv_reachable _ _ OK R)) as S.
  destruct (isolated_run _ _ _ _ _ ck OK R RUN (not_eq_sym NE)) as (SO & _ & CI & _).
  split; [now apply CI|]. pose proof (vault_kept _ _ _ _ _ _ _ OK R C RUN NE) as V.
  apply run_ok in RUN as (_ & D & _). unfold level, seen. rewrite (owed_ext _ _ _ _ _ _ SO).
  rewrite (holder_acc_other _ _ _ _ _ ck OK S D) by auto. split; [auto|lia].
Qed.
Lemma level_rely e w w' ck cf : env_ok e -> reachable e w -> rely e w w' ->
  config_at e w ck cf -> config_at e w' ck cf /\
    level e w' ck cf <= level e w ck cf /\ seen e w ck cf <= seen e w' ck cf.
Proof.
  intros OK R RL C. pose proof (inv_reachable _ _ OK R) as I. pose proof (i_sane _ _ I) as S.
  destruct C as [O D]. destruct (rely_kept _ _ _ ck RL O) as (O' & D' & _); [intros [m Z]; congruence|].
  pose proof (rely_pda_lam _ _ _ _ RL (pda_vault e ck)) as V.
  split; [split; congruence|]. unfold level, seen. split; [|lia].
  rewrite (owed_ext e w w'); [|intros k; now apply rely_stake_of].
  destruct (rely_holder _ _ _ RL ck) as [[_ E]|[A _]].
  - unfold holder_acc. rewrite E. reflexivity.
  - pose proof (i_backed _ _ I ck) as B. assert (deposit e w ck = 0) as Z.
    { unfold deposit. destruct (dat (get w (e_holder e (e_vault e ck)))) eqn:X; auto. exfalso. eapply A; eauto. }
    etransitivity; [apply owed_holder with (h := holder_acc e w ck)|].
    assert (sum_of e w ck staked = 0) as -> by lia. lia.
Qed.

(** What a settling instruction owes afterwards. *)
Lemma collected_funds e ck auth sk w w' : collected e ck sk w w' -> ck <> e_vault e ck ->
  paid_out ck auth None (pending e w ck sk) 0 w w' ->
  funds e w ck + 0 <= funds e w' ck + sum_over (pending e w ck) [sk].
Proof.
  intros C NV P. pose proof (P ck) as P1. pose proof (P (e_vault e ck)) as P2. unfold funds. cbn [sum_over].
  rewrite N.eqb_refl in P1. rewrite (proj2 (N.eqb_neq _ _) (not_eq_sym NV)) in P2.
  rewrite N.add_0_r in *. lia.
Qed.
Lemma paid_nothing e ck w w' : holder_acc e w' ck = holder_acc e w ck -> pool_paid e ck w w' = 0.
Proof. intros E. unfold pool_paid. rewrite E, since_same. reflexivity. Qed.
Lemma sum_over_ge f x ks : In x ks -> f x <= sum_over f ks.
Proof. induction ks as [|k ks IH]; [intros []|]. intros [->|H]; cbn [sum_over]; [lia|]. specialize (IH H). lia. Qed.
Lemma held_stakes e cx a w w' ck k : held_ok e cx a w w' -> stake_of e w' ck k = stake_of e w ck k.
Proof.
  intros []. destruct H1 as [c1 rpt Hc1 Hl1 Hr1 Hw1]. destruct H2. unfold stake_of, stake_in.
  pose proof (Hdat k) as DK. pose proof (Ho k) as OK0. rewrite Hw1 in OK0, DK, Hh. wsi OK0. wsi DK. wsi Hh.
  rewrite H4, H3. ws. rewrite OK0. destruct (N.eqb_spec (hh_config a) k) as [<-|NC].
  - rewrite Hc0. destruct (_ =? _); reflexivity.
  - rewrite DK. destruct (N.eqb_spec (hh_vhr a) k) as [<-|]; [|auto].
    destruct (N.eqb_spec (hh_config a) (hh_vhr a)); [congruence|]. rewrite Hh. destruct (_ =? _); reflexivity.
Qed.
Lemma settle_step e cx w w' c cf : env_ok e -> reachable e w -> run e cx c w = Ok w' -> syncs c = true ->
  keeper_in c <> Some (call_config c) -> config_at e w (call_config c) cf ->
  owed e w' (call_config c) (acc_at w (call_config c)) (holder_acc e w' (call_config c)) +
    10 ^ 18 * funds e w (call_config c) <=
  owed e w (call_config c) (acc_at w (call_config c)) (holder_acc e w (call_config c)) +
    10 ^ 18 * funds e w' (call_config c) + allowance e (call_config c) w (Do cx c).
Proof.
  intros OK R RUN Y NK C. pose proof (inv_reachable _ _ OK R) as I. pose proof (i_sane _ _ I) as S.
  pose proof (reach_acc_ok e w (call_config c) OK R) as A. pose proof RUN as RUN0. apply run_ok in RUN as (_ & D & T & _).
  assert (call_config c <> e_vault e (call_config c)) as NV by (intros E; exact (config_not_vault _ _ _ _ (call_config c) S C (eq_sym E))).
  pose proof (sum_staked_did _ _ _ _ _ (call_config c) OK S D) as SS.
  pose proof (i_backed _ _ I (call_config c)) as B. destruct C as [CO CD].
  assert (forall k, own (get w k) = e_rewards e -> k <> call_config c) as NP.
  { intros k P. eapply config_not_pool; eauto. split; eauto. }
  pose proof (fun HC => holder_acc_hframe e w w' (call_config c) (hframe_did _ _ _ _ _ OK S D HC)) as HF.
  destruct D; try discriminate; cbn [call_config keeper_in allowance stake_added stake_slashed stake_removed] in *;
    rewrite ?N.eqb_refl in *.
  - destruct (staked_pays _ _ _ _ _ _ OK S A H T) as (TO & P1 & M & HA).
    eapply owed_settle with (n := n) in CD; [|eapply touched_cleared; exact TO| |lia].
    2: { eapply moves_funds; eauto. left. split; [|auto]. apply NP. destruct H as [? ? ? ? ? []]. destruct H5.
         rewrite <- Hpo. symmetry. transitivity (own (get w3 (st_pool a))); [destruct H4; auto|].
         transitivity (own (get w2 (st_pool a))); [destruct H3; auto|]. rewrite H2. ws.
         exact (ev_own _ _ _ (evolves_harvest _ _ _ _ _ _ _ _ _ H1) _). }
    unfold settles_vault. rewrite <- HA. exact CD.
  - destruct (C26_holder_harvest _ _ _ _ _ OK R RUN0) as (c1 & c1' & paid & _ & _ & PP & P1 & P2 & _ & HA & PE & LV & LC & _).
    eapply (owed_settle _ _ _ _ [] _ 0) in CD; [unfold settles_vault; rewrite <- HA; exact CD| | |lia].
    + split; [constructor|intros x []|]. intros x _. eapply held_stakes; eauto.
    + unfold funds, pool_paid. cbn [sum_over]. rewrite <- PE. lia.
  - destruct (val_harvested_pays _ _ _ _ A H T) as [TO M].
    assert (holder_acc e w' (hv_config a) = holder_acc e w (hv_config a)) as E by (exact (HF eq_refl)).
    eapply (owed_settle _ _ _ _ _ _ 0) in CD; [|eapply touched_cleared; exact TO| |lia].
    2: { rewrite (paid_nothing _ _ _ _ E). eapply moves_funds; eauto. }
    rewrite E, N.eqb_refl in *. exact CD.
  - destruct (slashed_pays _ _ _ _ _ _ OK S A H T) as [TO M].
    assert (holder_acc e w' (sl_config a) = holder_acc e w (sl_config a)) as E by (exact (HF eq_refl)).
    eapply (owed_settle _ _ _ _ _ _ 0) in CD; [|eapply touched_cleared; exact TO| |lia].
    2: { rewrite (paid_nothing _ _ _ _ E). eapply moves_funds; eauto. }
    rewrite E, N.eqb_refl in *. exact CD.
  - destruct (staked_pays _ _ _ _ _ _ OK S A H T) as (TO & P1 & M & HA).
    eapply owed_settle with (n := n) in CD; [|eapply touched_cleared; exact TO| |lia].
    2: { eapply moves_funds; eauto. left. split; [|auto]. apply NP. destruct H as [? ? ? ? ? []]. destruct H5.
         rewrite <- Hpo. symmetry. transitivity (own (get w3 (st_pool a))); [destruct H4; auto|].
         transitivity (own (get w2 (st_pool a))); [destruct H3; auto|]. rewrite H2. ws.
         exact (ev_own _ _ _ (evolves_harvest _ _ _ _ _ _ _ _ _ H1) _). }
    unfold settles_vault. rewrite <- HA. exact CD.
  - assert (holder_acc e w' (hs_config a) = holder_acc e w (hs_config a)) as E by (exact (HF eq_refl)).
    destruct (harvest_sol_collects _ _ _ _ _ OK S A H T) as (s & vw & _ & SS0 & _ & _ & [(_ & CL & P)|(_ & kp & K & SA)]).
    + eapply (owed_settle _ _ _ _ _ _ 0) in CD; [|eapply touched_cleared, touched_collected; exact CL| |lia].
      2: { rewrite (paid_nothing _ _ _ _ E). eapply collected_funds; eauto. }
      rewrite E, N.eqb_refl in *. exact CD.
    + destruct SA as [S1 S2 (ks & c1 & ND & SW & _ & IK & OK' & P)]; [congruence|].
      eapply (owed_settle _ _ _ _ ks _ 0) in CD; [rewrite E, N.eqb_refl in *; exact CD| | |lia].
      * split; auto. intros x X. destruct (IK x X) as (c2 & d & _ & SD & L1 & L2). exists d. rewrite <- S1, <- S2. auto.
      * rewrite (paid_nothing _ _ _ _ E), N.add_0_r. unfold funds.
        pose proof (P _ SS0 (hs_config a)) as X1. pose proof (P _ SS0 (e_vault e (hs_config a))) as X2.
        rewrite N.eqb_refl in X1. rewrite (proj2 (N.eqb_neq _ _) (not_eq_sym NV)) in X2.
        assert (forall k, (if k =? authority (s_del s) then N.min (pending e w (hs_config a) (hs_stake a)) (cfg_sync c1) else 0)
                  <= sum_over (share e w (hs_config a) k) ks) as F.
        { intros k. destruct (N.eqb_spec k (authority (s_del s))) as [->|]; [|lia].
          etransitivity; [|apply (sum_over_ge _ (hs_stake a)); apply SW; now left].
          unfold share. rewrite SS0, N.eqb_refl. lia. }
        pose proof (F (hs_config a)) as F1. pose proof (F (e_vault e (hs_config a))) as F2.
        set (f1 := if hs_config a =? authority _ then _ else _) in *. set (f2 := if e_vault e _ =? authority _ then _ else _) in *.
        set (g1 := if hs_config a =? kp then _ else _) in *. set (g2 := if e_vault e _ =? kp then _ else _) in *.
        clearbody f1 f2 g1 g2. lia.
  - destruct (unstaked_pays _ _ _ _ _ _ OK S A H T) as (TO & P1 & M & HA).
    eapply (owed_settle _ _ _ _ _ _ 0) in CD; [|eapply touched_cleared; exact TO| |lia].
    2: { eapply moves_funds; eauto. left. split; [|auto]. apply NP. destruct H. destruct H4.
         rewrite <- Hpo. symmetry. transitivity (own (get w2 (un_pool a))); [destruct H3; auto|]. rewrite H2. ws.
         exact (ev_own _ _ _ (evolves_harvest _ _ _ _ _ _ _ _ _ H1) _). }
    destruct HA as [HA|HA].
    + unfold settles_vault. rewrite <- HA. exact CD.
    + rewrite HA, N.eqb_refl in *. lia.
  - destruct (slashed_pays _ _ _ _ _ _ OK S A H T) as [TO M].
    assert (holder_acc e w' (sl_config a) = holder_acc e w (sl_config a)) as E by (exact (HF eq_refl)).
    eapply (owed_settle _ _ _ _ _ _ 0) in CD; [|eapply touched_cleared; exact TO| |lia].
    2: { rewrite (paid_nothing _ _ _ _ E). eapply moves_funds; eauto. }
    rewrite E, N.eqb_refl in *. exact CD.
  - destruct (moved_pays _ _ _ _ _ _ A H T) as [TO M].
    assert (holder_acc e w' (mv_config a) = holder_acc e w (mv_config a)) as E by (exact (HF eq_refl)).
    eapply (owed_settle _ _ _ _ _ _ 0) in CD; [|eapply touched_cleared; exact TO| |lia].
    2: { rewrite (paid_nothing _ _ _ _ E). eapply moves_funds; eauto. }
    rewrite E, N.eqb_refl in *. exact CD.
  - destruct (overridden_pays _ _ _ _ _ _ A H T) as [TO M].
    assert (holder_acc e w' (ov_config a) = holder_acc e w (ov_config a)) as E by (exact (HF eq_refl)).
    eapply (owed_settle _ _ _ _ _ _ 0) in CD; [|eapply touched_cleared; exact TO| |lia].
    2: { rewrite (paid_nothing _ _ _ _ E). eapply moves_funds; eauto. }
    rewrite E, N.eqb_refl in *. exact CD.
Qed.

(** One step of a history. *)
Lemma level_step e ck w ev w' cf : env_ok e -> reachable e w -> step e w ev w' ->
  (forall cx c, ev = Do cx c -> keeper_in c <> Some ck) -> config_at e w ck cf ->
  exists cf', config_at e w' ck cf' /\
    level e w' ck cf' + 10 ^ 18 * seen e w ck cf <=
    level e w ck cf + 10 ^ 18 * seen e w' ck cf' + allowance e ck w ev.
Proof.
  intros OK R ST NK C. destruct ST as [w cx c w' WC CL RUN|w w' RL].
  - specialize (NK cx c eq_refl). destruct (N.eq_dec (call_config c) ck) as [<-|NE].
    + destruct (syncs c) eqn:Y.
      * pose proof (settle_step _ _ _ _ _ _ OK R RUN Y NK C) as SS. pose proof (inv_reachable _ _ OK R) as I.
        destruct (run_settles _ _ _ _ _ OK (i_sane _ _ I) (i_wf _ _ I) RUN Y NK) as (c0 & cf' & C0 & C' & A & L).
        assert (c0 = cf) as -> by (destruct C, C0; congruence). exists cf'. split; [auto|].
        pose proof (owed_sync _ _ _ _ (holder_acc e w (call_config c)) C (i_eff _ _ I) (i_lamp _ _ I)) as O.
        unfold level, seen. rewrite A, <- (acc_at_eq _ _ _ (proj2 C)), L. unfold funds in SS.
        set (al := allowance _ _ _ _) in *. set (o1 := owed e w' _ _ _) in *. set (o2 := owed e w _ (acc_at _ _) _) in *.
        set (o3 := owed e w _ (cfg_acc _) _) in *. clearbody al o1 o2 o3. lia.
      * destruct (level_quiet _ _ _ _ _ _ OK R RUN Y C) as (cf' & C' & E1 & E2). exists cf'. split; [auto|].
        rewrite E1, E2. set (x := level _ _ _ _). set (y := allowance _ _ _ _). clearbody x y. lia.
    + destruct (level_other _ _ _ _ _ _ _ OK R RUN NE C) as (C' & E1 & E2). exists cf. split; [auto|].
      rewrite E1. set (x := level _ _ _ _). set (y := allowance _ _ _ _). clearbody x y. lia.
  - destruct (level_rely _ _ _ _ _ OK R RL C) as (C' & E1 & E2). exists cf. split; [auto|].
    set (x := level e w' _ _) in *. set (x' := level e w _ _) in *. set (y := allowance _ _ _ _). clearbody x x' y. lia.
Qed.
Lemma covered_reachable e ck w w' n : reachable e w -> covered e ck w w' n -> reachable e w'.
Proof. intros R. induction 1 as [|w w1 n ev w2 ID IH]; auto. apply (reachable_step e w1 ev w2); auto. Qed.
Lemma level_covered e ck w w' n cf : env_ok e -> reachable e w -> covered e ck w w' n -> config_at e w ck cf ->
  exists cf', config_at e w' ck cf' /\
    level e w' ck cf' + 10 ^ 18 * seen e w ck cf <= level e w ck cf + 10 ^ 18 * seen e w' ck cf' + n.
Proof.
  intros OK R H C. induction H as [w|w w1 n ev w2 CV IH ST NK].
  - exists cf. split; [auto|]. set (x := level _ _ _ _). clearbody x. lia.
  - destruct (IH R C) as (c1 & C1 & L1). pose proof (covered_reachable _ _ _ _ _ R CV) as R1.
    destruct (level_step _ _ _ _ _ _ OK R1 ST NK C1) as (c2 & C2 & L2). exists c2. split; [auto|].
    set (al := allowance _ _ _ _) in *. clearbody al.
    set (x := level e w1 _ _) in *. set (x' := level e w _ _) in *. set (x2 := level e w2 _ _) in *. clearbody x x' x2. lia.
Qed.
(** The claims at the end, up to date. *)
Lemma covered_claims e ck w w' n cf : env_ok e -> reachable e w -> covered e ck w w' n -> config_at e w ck cf ->
  10 ^ 18 * claims e w' ck + 10 ^ 18 * seen e w ck cf <= level e w ck cf + 10 ^ 18 * funds e w' ck + n.
Proof.
  intros OK R H C. destruct (level_covered _ _ _ _ _ _ OK R H C) as (cf' & C' & L).
  pose proof (inv_reachable _ _ OK (covered_reachable _ _ _ _ _ R H)) as I.
  pose proof (owed_sync _ _ _ _ (holder_acc e w' ck) C' (i_eff _ _ I) (i_lamp _ _ I)) as O.
  pose proof (owed_claims e w' ck cf' (proj2 C')) as K. unfold funds, seen, level in *.
  set (o1 := owed e w' _ (acc_at _ _) _) in *. set (o2 := owed e w' _ (cfg_acc _) _) in *. set (o3 := owed e w _ _ _) in *.
  set (cl := claims e w' ck) in *. clearbody o1 o2 o3 cl. lia.
Qed.
