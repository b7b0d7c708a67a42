(** C89: the remaining errors tell the truth. *)
From Verif Require Import Base Types Layout Instr Math External Processor Runtime History Spec SpecReward SpecLive
  WorldLemmas Effects Handlers Evolve Sane Wf Arith Totals Nets Caps Stakers Deposits Inv Life Gov Flow Kinds Rewards Collect
  Progress Live LiveMore LiveStake LiveTokens SpecError Errors PropError SpecOver SpecCause Demo.

Definition listed (x : error) : bool :=
  match x with
  | InvalidAccountData | UninitializedAccount | BorshIoError | TokenError | RewardsError | SystemError | InsufficientFunds
  | ExternalAccountLamportSpend | ReadonlyAccountModified | UnbalancedInstruction => true
  | _ => false
  end.

(** ** Unreadable accounts *)
Lemma fits_kind q D D' : kind D = kind D' -> fits q D = fits q D'.
Proof. destruct D, D'; simpl; intros [=]; destruct q; reflexivity. Qed.
Lemma complaint_kind q D D' : kind D = kind D' -> complaint q D = complaint q D'.
Proof. intros K. pose proof (kind_len _ _ K) as L. destruct q; simpl; rewrite ?L; reflexivity. Qed.
Lemma unreadable_kframe w w' k q x : kframe w w' -> unreadable w' k q x -> unreadable w k q x.
Proof. intros K [F E]. specialize (K k). split; [now rewrite <- (fits_kind q _ _ K)|now rewrite <- (complaint_kind q _ _ K)]. Qed.
Lemma config_bad w k : errs (unreadable w k AConfig) (unpack_config (dat (get w k))).
Proof. unfold unreadable, complaint, sizes, existsb, unpack_config. destruct (dat (get w k)); intros x H; try discriminate H; (split; [reflexivity|]); rewrite orb_false_r; change CONFIG_LEN with 192 in *; destruct (data_len _ =? 192); congruence. Qed.
Lemma val_bad w k : errs (unreadable w k AValidator) (unpack_val (dat (get w k))).
Proof. unfold unreadable, complaint, sizes, existsb, unpack_val. destruct (dat (get w k)); intros x H; try discriminate H; (split; [reflexivity|]); rewrite orb_false_r; change VAL_LEN with 144 in *; destruct (data_len _ =? 144); congruence. Qed.
Lemma sol_bad w k : errs (unreadable w k AStaker) (unpack_sol (dat (get w k))).
Proof. unfold unreadable, complaint, sizes, existsb, unpack_sol. destruct (dat (get w k)); intros x H; try discriminate H; (split; [reflexivity|]); rewrite orb_false_r; change SOL_LEN with 168 in *; destruct (data_len _ =? 168); congruence. Qed.
Lemma token_bad w k : errs (unreadable w k AToken) (unpack_token (dat (get w k))).
Proof. unfold unreadable, complaint, sizes, existsb, unpack_token. destruct (dat (get w k)); intros x H; try discriminate H; (split; [reflexivity|]); rewrite orb_false_r; destruct (data_len _ =? 165); congruence. Qed.
Lemma mint_bad w k : errs (unreadable w k AMint) (unpack_mint (dat (get w k))).
Proof. unfold unreadable, complaint, sizes, existsb, unpack_mint. destruct (dat (get w k)); intros x H; try discriminate H; (split; [reflexivity|]); rewrite orb_false_r; destruct (data_len _ =? 82); congruence. Qed.
Lemma holder_bad w k : errs (unreadable w k AHolder) (unpack_holder (dat (get w k))).
Proof. unfold unreadable, complaint, unpack_holder. destruct (dat (get w k)); intros x H; try discriminate H; (split; [reflexivity|]); congruence. Qed.
Lemma vote_bad w k : errs (unreadable w k AVote) (vote_withdrawer (dat (get w k))).
Proof. unfold unreadable, complaint, sizes, existsb, vote_withdrawer. destruct (dat (get w k)); intros x H; try discriminate H; (split; [reflexivity|]); congruence. Qed.
Lemma any_bad e w k ck : errs (unreadable w k AStake) (load_any e w k ck).
Proof.
  unfold load_any. cbv zeta. unfold unreadable, complaint, sizes, existsb, unpack_val, unpack_sol.
  change VAL_LEN with 144. change SOL_LEN with 168.
  destruct (dat (get w k)); intros x H; try (cbn in H; discriminate H); (split; [reflexivity|]); rewrite orb_false_r;
    destruct (data_len _ =? 144); try (simpl in H |- *; congruence);
    destruct (data_len _ =? 168); simpl in H |- *; congruence.
Qed.
Lemma del_kind D D' d : kind D' = kind D -> del_of D = Ok d -> exists d', del_of D' = Ok d'.
Proof. destruct D, D'; simpl; intros [=] [=]; eauto. Qed.

(** ** The steps *)
Lemma sums_causes (P : error -> Prop) (r : result N) : P ArithmeticOverflow -> errs (fun x => x = ArithmeticOverflow) r -> errs P r.
Proof. intros U H x E. now rewrite (H x E). Qed.
Ltac sum := repeat match goal with
  | |- errs _ (Ok _) => apply errs_ok
  | |- errs _ (Err _) => apply errs_err; reflexivity
  | |- errs _ (bind _ _) => apply errs_bind; [|intros ? _]
  | |- errs _ (if _ then _ else _) => apply errs_if; intros _
  end.
Lemma add64_sum a b : errs (fun x => x = ArithmeticOverflow) (add64 a b). Proof. unfold add64. sum. Qed.
Lemma csub_sum a b : errs (fun x => x = ArithmeticOverflow) (csub a b). Proof. unfold csub. sum. Qed.
Lemma elig_sum a b c : errs (fun x => x = ArithmeticOverflow) (calculate_eligible_rewards a b c).
Proof. unfold calculate_eligible_rewards, mul128, to64. cbv zeta. sum. Qed.
Lemma rpt_sum a b : errs (fun x => x = ArithmeticOverflow) (calculate_stake_rewards_per_token a b).
Proof. unfold calculate_stake_rewards_per_token, mul128. cbv zeta. sum. Qed.
Lemma max_sum a : errs (fun x => x = ArithmeticOverflow) (calculate_maximum_stake a).
Proof. unfold calculate_maximum_stake, mul128, to64. cbv zeta. sum. Qed.
Lemma deact_sum a b : errs (fun x => x = ArithmeticOverflow) (max_deactivation_amount a b).
Proof. unfold max_deactivation_amount, mul128, to64. cbv zeta. sum. Qed.
(* one step that cannot fail with a listed error *)
Ltac nu U := first
  [ apply errs_ok | apply errs_assert | apply errs_panic
  | apply errs_require; intros _; apply U; reflexivity
  | apply errs_err; apply U; reflexivity
  | apply sums_causes; [apply U; reflexivity|first [apply add64_sum|apply csub_sum|apply elig_sum|apply rpt_sum|apply max_sum|apply deact_sum]] ].
Ltac go U := apply errs_bind; [nu U|intros ? _].

Definition okdel (w : world) (k : pubkey) : Prop := exists d, del_of (dat (get w k)) = Ok d.
Lemma okdel_kframe w w' k : kframe w w' -> okdel w k -> okdel w' k.
Proof. intros K [d D]. eapply del_kind; eauto. Qed.
Lemma okdel_errs (P : error -> Prop) w k : okdel w k -> errs P (del_of (dat (get w k))).
Proof. intros [d ->]. apply errs_ok. Qed.

Section Steps.
  Context (P : error -> Prop) (U : forall x, listed x = false -> P x) (w0 : world).
  Lemma read_config w k : kframe w0 w -> (forall x, unreadable w0 k AConfig x -> P x) -> errs P (unpack_config (dat (get w k))).
  Proof using. intros K B. eapply errs_mono; [|apply config_bad]. intros x X. apply B. eapply unreadable_kframe; eauto. Qed.
  Lemma read_val w k : kframe w0 w -> (forall x, unreadable w0 k AValidator x -> P x) -> errs P (unpack_val (dat (get w k))).
  Proof using. intros K B. eapply errs_mono; [|apply val_bad]. intros x X. apply B. eapply unreadable_kframe; eauto. Qed.
  Lemma read_sol w k : kframe w0 w -> (forall x, unreadable w0 k AStaker x -> P x) -> errs P (unpack_sol (dat (get w k))).
  Proof using. intros K B. eapply errs_mono; [|apply sol_bad]. intros x X. apply B. eapply unreadable_kframe; eauto. Qed.
  Lemma read_token w k : kframe w0 w -> (forall x, unreadable w0 k AToken x -> P x) -> errs P (unpack_token (dat (get w k))).
  Proof using. intros K B. eapply errs_mono; [|apply token_bad]. intros x X. apply B. eapply unreadable_kframe; eauto. Qed.
  Lemma read_mint w k : kframe w0 w -> (forall x, unreadable w0 k AMint x -> P x) -> errs P (unpack_mint (dat (get w k))).
  Proof using. intros K B. eapply errs_mono; [|apply mint_bad]. intros x X. apply B. eapply unreadable_kframe; eauto. Qed.
  Lemma read_holder w k : kframe w0 w -> (forall x, unreadable w0 k AHolder x -> P x) -> errs P (unpack_holder (dat (get w k))).
  Proof using. intros K B. eapply errs_mono; [|apply holder_bad]. intros x X. apply B. eapply unreadable_kframe; eauto. Qed.
  Lemma read_vote w k : kframe w0 w -> (forall x, unreadable w0 k AVote x -> P x) -> errs P (vote_withdrawer (dat (get w k))).
  Proof using. intros K B. eapply errs_mono; [|apply vote_bad]. intros x X. apply B. eapply unreadable_kframe; eauto. Qed.

  Lemma load_config_causes e k : (forall x, unreadable w0 k AConfig x -> P x) -> errs P (load_config e w0 k).
  Proof using U. intros B. unfold load_config. go U. apply read_config; [apply kframe_refl|auto]. Qed.
  Lemma load_val_causes e w k ck : kframe w0 w -> (forall x, unreadable w0 k AValidator x -> P x) -> errs P (load_val e w k ck).
  Proof using U. intros K B. unfold load_val. go U. apply errs_bind; [now apply read_val|intros v _]. go U. apply errs_ok. Qed.
  Lemma load_sol_causes e w k ck : kframe w0 w -> (forall x, unreadable w0 k AStaker x -> P x) -> errs P (load_sol e w k ck).
  Proof using U. intros K B. unfold load_sol. go U. apply errs_bind; [now apply read_sol|intros v _]. go U. apply errs_ok. Qed.
  Lemma sync_config_causes w ck : kframe w0 w -> (forall x, unreadable w0 ck AConfig x -> P x) -> errs P (sync_config_lamports w ck).
  Proof using U.
    intros K B. unfold sync_config_lamports. apply errs_bind; [now apply read_config|intros c _]. go U. go U. apply errs_ok.
  Qed.
  Lemma harvest_causes e w ck vhr auth va sk kp : kframe w0 w -> (forall x, unreadable w0 ck AConfig x -> P x) ->
    (forall x, unreadable w0 vhr AHolder x -> P x) -> okdel w0 sk -> errs P (harvest e w ck vhr auth va sk kp).
  Proof using U.
    intros K B H D. unfold harvest. apply errs_bind; [apply okdel_errs; eapply okdel_kframe; eauto|intros d _].
    go U. apply errs_bind; [now apply sync_config_causes|intros w1 W1]. apply sync_config_lamports_ok, kframe_synced in W1.
    pose proof (kframe_trans _ _ _ K W1) as K1.
    apply errs_bind; [now apply read_config|intros c _]. go U. go U. apply errs_bind; [now apply read_holder|intros h _].
    go U. go U. cbv zeta. go U. go U. apply errs_bind; [|intros [w2 kr] _].
    { destruct kp; [go U|]; apply errs_ok. }
    go U. go U. apply errs_ok.
  Qed.
  Lemma sync_eff_causes w ck sk a b : kframe w0 w -> (forall x, unreadable w0 ck AConfig x -> P x) -> okdel w0 sk ->
    errs P (sync_effective w ck sk a b).
  Proof using U.
    intros K B D. unfold sync_effective. apply errs_bind; [now apply read_config|intros c _].
    apply errs_bind; [apply okdel_errs; eapply okdel_kframe; eauto|intros d _]. go U. go U. go U. apply errs_ok.
  Qed.
  Lemma cpi_causes wa w ck sk ks : (unheld [ck; sk] ks -> forall k, In k ks -> lam (get w k) <> lam (get wa k) -> P UnbalancedInstruction) ->
    errs P (cpi_check wa w [ck; sk] ks).
  Proof using U.
    intros B. unfold cpi_check. apply errs_bind; [nu U|intros ? G]. apply errs_require. intros F. apply N.eqb_neq in F.
    apply require_ok, negb_true_iff in G.
    assert (unheld [ck; sk] ks) as UH.
    { intros k I J. apply eq_true_false_abs with (2 := G). apply existsb_exists. exists k. split; auto.
      apply existsb_exists. exists k. split; auto. apply N.eqb_refl. }
    destruct (existsb (fun k => negb (lam (get w k) =? lam (get wa k))) ks) eqn:E.
    - apply existsb_exists in E as (k & IN & E). apply negb_true_iff, N.eqb_neq in E. eauto.
    - exfalso. apply F. apply lam_sum_same. intros k IN. destruct (N.eqb_spec (lam (get w k)) (lam (get wa k))) as [|N]; [auto|].
      apply N.eqb_neq in N. rewrite <- not_true_iff_false in E. destruct E. apply existsb_exists. exists k. split; [auto|]. now rewrite N.
  Qed.
  Ltac tok0 := repeat match goal with
    | |- errs _ (Ok _) => apply errs_ok
    | |- errs _ (require _ _) => apply errs_require; intros _; auto
    | |- errs _ (Err _) => apply errs_err; auto
    | |- errs _ (bind _ _) => apply errs_bind; [|intros ? _]
    | |- errs _ (if _ then _ else _) => apply errs_if; intros _
    | |- errs _ (match ?x with _ => _ end) => destruct x
    end.
  Lemma transfer_causes e s w a b c d n : P TokenError -> errs P (token_transfer e s w a b c d n).
  Proof using. intros T. unfold token_transfer, token_at, mint_at, token_authorise. cbv zeta. tok0. Qed.
  Lemma burn_causes e s w a b c n : P TokenError -> errs P (token_burn e s w a b c n).
  Proof using. intros T. unfold token_burn, token_at, mint_at, token_authorise. cbv zeta. tok0. Qed.
  Ltac tok := repeat match goal with
    | |- errs _ (Ok _) => apply errs_ok
    | |- errs _ (require _ _) => apply errs_require; intros _; auto
    | |- errs _ (Err _) => apply errs_err; auto
    | |- errs _ (bind _ _) => apply errs_bind; [|intros ? _]
    | |- errs _ (token_transfer _ _ _ _ _ _ _ _) => apply transfer_causes; auto
    | |- errs _ (if _ then _ else _) => apply errs_if; intros _
    | |- errs _ (match ?x with _ => _ end) => destruct x
    end.
  Lemma deposit_causes e s w a b c d o x y z u : P TokenError -> P RewardsError -> errs P (rewards_deposit e s w a b c d o x y z u).
  Proof using.
    intros T R. unfold rewards_deposit, rewards_checked, pool_pay, pool_reward, token_at. cbv zeta.
    tok.
  Qed.
  Lemma withdraw_causes e s w a b c d o x y z u : P TokenError -> P RewardsError -> errs P (rewards_withdraw e s w a b c d o x y z u).
  Proof using.
    intros T R. unfold rewards_withdraw, rewards_checked, pool_pay, pool_reward, token_at. cbv zeta.
    tok.
  Qed.
  Lemma rharvest_causes e s w a b c d o x : P TokenError -> P RewardsError -> errs P (rewards_harvest e s w a b c d o x).
  Proof using.
    intros T R. unfold rewards_harvest, rewards_checked, pool_pay, pool_reward, token_at. cbv zeta. tok.
  Qed.
End Steps.

(** ** The handlers *)
Lemma cause_un e cx w c x : listed x = false -> cause e cx w c x.
Proof. destruct x; simpl; intros [=]; exact I. Qed.
Lemma cause_bad e cx w c k q x : In (k, q) (reads c) -> unreadable w k q x -> cause e cx w c x.
Proof.
  intros IN B. pose proof B as [_ E].
  assert (x = BorshIoError \/ x = UninitializedAccount \/ x = InvalidAccountData) as X.
  { destruct q; simpl in E; try (destruct (existsb _ _)); try (destruct (_ || _)); auto. }
  destruct X as [X|[X|X]]; rewrite X in *; left; eauto.
Qed.
Ltac bad := intros ? ?X; eapply cause_bad; [|exact X]; simpl; clear; auto 10.

Lemma init_config_causes e cx a s au cd bps sy du w : env_ok e -> inv e w ->
  errs (cause e cx w (CInitializeConfig a s au cd bps sy du)) (initialize_config e cx a s au cd bps sy du w).
Proof.
  intros OK IV. set (P := cause _ _ _ _). assert (forall x, listed x = false -> P x) as U by apply cause_un.
  unfold initialize_config. cbv zeta.
  apply errs_bind; [apply (read_mint P w); [apply kframe_refl|bad]|intros m _].
  apply errs_bind; [nu U|intros ? V]. apply require_ok in V. b2p V.
  apply errs_bind; [nu U|intros ? ED]. apply require_ok, data_empty_ok in ED.
  apply errs_bind.
  { unfold system_assign. apply errs_if; intros O; [apply errs_ok|]. apply N.eqb_neq in O.
    destruct (sane_pda _ _ (i_sane _ _ IV) (ic_vault_pda a)) as [Z _]; [rewrite V; unfold pda; eauto 8|auto|].
    unfold with_pda. rewrite Z, V, !N.eqb_refl, orb_true_r. apply errs_ok. }
  intros w1 W1. assert (kframe w w1) as K.
  { apply system_assign_ok in W1 as [[_ ->]|(_ & _ & _ & ->)]; [apply kframe_refl|]. apply kframe_same. intros k. now ws. }
  go U. apply errs_bind; [apply (read_token P w); [exact K|bad]|intros t _].
  do 10 (go U). apply errs_ok.
Qed.
Lemma fresh_allocate (P : error -> Prop) e cx w k len : env_ok e -> sane e w -> pda e k -> (forall ck, k <> e_vault e ck) ->
  dat (get w k) = DRaw [] -> errs P (system_allocate (with_pda cx k) w k len).
Proof.
  intros OK S PD NV D. assert (own (get w k) = 0) as Z.
  { destruct (N.eq_dec (own (get w k)) (e_prog e)) as [O|O]; [|apply (sane_pda _ _ S k PD O)].
    destruct (sane_raw _ _ S k [] O D) as [_ R]. destruct (R PD) as (_ & ck & E). destruct (NV ck E). }
  unfold system_allocate, with_pda. rewrite D, Z, !N.eqb_refl, orb_true_r. apply errs_ok.
Qed.
Lemma fresh_assign (P : error -> Prop) cx w k o : own (get w k) = 0 -> errs P (system_assign (with_pda cx k) w k o).
Proof.
  intros Z. unfold system_assign. apply errs_if; intros _; [apply errs_ok|].
  unfold with_pda. rewrite Z, !N.eqb_refl, orb_true_r. apply errs_ok.
Qed.
Lemma init_val_causes e cx a w : env_ok e -> inv e w -> errs (cause e cx w (CInitializeValidatorStake a)) (initialize_validator_stake e cx a w).
Proof.
  intros OK IV. set (P := cause _ _ _ _). assert (forall x, listed x = false -> P x) as U by apply cause_un.
  unfold initialize_validator_stake. cbv zeta.
  apply errs_bind; [apply load_config_causes; [exact U|bad]|intros c C]. go U.
  apply errs_bind; [apply (read_vote P w); [apply kframe_refl|bad]|intros v _].
  apply errs_bind; [unfold check_duna; go U; nu U|intros ? _].
  apply errs_bind; [nu U|intros ? K]. apply require_ok in K. b2p K. rewrite <- K.
  apply errs_bind; [nu U|intros ? ED]. apply require_ok, data_empty_ok in ED. go U.
  apply errs_bind; [apply (fresh_allocate P e); auto; [apply IV|rewrite K; unfold pda; eauto|intros ck E; rewrite K in E; now apply (ok_val_vault e OK) in E]|].
  intros w1 W1. apply system_allocate_ok in W1 as (_ & Z & _ & ->).
  apply errs_bind; [apply fresh_assign; now ws|intros w2 _]. apply errs_ok.
Qed.
Lemma init_sol_causes e cx a w : env_ok e -> inv e w -> errs (cause e cx w (CInitializeSolStakerStake a)) (initialize_sol_staker_stake e cx a w).
Proof.
  intros OK IV. set (P := cause _ _ _ _). assert (forall x, listed x = false -> P x) as U by apply cause_un.
  unfold initialize_sol_staker_stake. cbv zeta.
  apply errs_bind; [apply load_config_causes; [exact U|bad]|intros c C]. go U.
  destruct (c_view cx) as [vw|] eqn:CV; [rewrite bind_Ok|apply errs_err, U; reflexivity]. go U.
  apply errs_bind; [apply errs_require; intros F; apply negb_false_iff in F; b2p F; right; split; [reflexivity|]; exists a, vw; auto|intros ? _].
  apply errs_bind; [unfold check_duna; go U; nu U|intros ? _]. go U.
  apply errs_bind; [nu U|intros ? VK]. apply require_ok in VK. b2p VK.
  apply errs_bind; [apply (read_val P w); [apply kframe_refl|bad]|intros v V]. apply unpack_val_ok in V.
  apply errs_bind; [nu U|intros ? K]. apply require_ok in K. b2p K. rewrite <- K.
  apply errs_bind; [nu U|intros ? ED]. apply require_ok, data_empty_ok in ED. go U.
  apply errs_bind; [apply errs_if; intros _; [apply errs_ok|apply errs_if; intros _; [apply errs_ok|apply errs_panic]]|intros ? _]. go U.
  apply errs_bind; [apply (fresh_allocate P e); auto; [apply IV|rewrite K; unfold pda; eauto|intros ck E; rewrite K in E; now apply (ok_sol_vault e OK) in E]|].
  intros w1 W1. apply system_allocate_ok in W1 as (_ & Z & _ & ->).
  assert (is_stake a <> is_val a) as NE by (intros E; rewrite E in ED; congruence).
  apply errs_bind; [apply fresh_assign; now ws|intros w2 W2].
  assert (dat (get w2 (is_val a)) = DVal v) as D2.
  { apply system_assign_ok in W2 as [[_ ->]|(_ & _ & _ & ->)]; ws; destruct (N.eqb_spec (is_stake a) (is_val a)); congruence. }
  ws. destruct (N.eqb_spec (is_stake a) (is_val a)); [congruence|]. rewrite D2. cbn [unpack_val]. rewrite bind_Ok. go U. apply errs_ok.
Qed.
Lemma set_authority_causes e cx a t w : errs (cause e cx w (CSetAuthority a t)) (set_authority_ix e cx a t w).
Proof.
  set (P := cause _ _ _ _). assert (forall x, listed x = false -> P x) as U by apply cause_un. unfold set_authority_ix. go U.
  apply errs_bind; [apply load_config_causes; [exact U|bad]|intros c _]. cbv zeta. go U. go U. apply errs_ok.
Qed.
Lemma update_config_causes e cx a f w : errs (cause e cx w (CUpdateConfig a f)) (update_config e cx a f w).
Proof.
  set (P := cause _ _ _ _). assert (forall x, listed x = false -> P x) as U by apply cause_un. unfold update_config.
  apply errs_bind; [apply load_config_causes; [exact U|bad]|intros c _]. go U. go U. go U.
  apply errs_bind; [destruct f; [nu U|go U; nu U|nu U]|intros ? _]. apply errs_ok.
Qed.
Lemma harvest_val_causes e cx a w : errs (cause e cx w (CHarvestValidatorRewards a)) (harvest_validator_rewards e cx a w).
Proof.
  set (P := cause _ _ _ _). assert (forall x, listed x = false -> P x) as U by apply cause_un. unfold harvest_validator_rewards. cbv zeta.
  apply errs_bind; [apply load_config_causes; [exact U|bad]|intros c _].
  apply errs_bind; [apply (load_val_causes P U w); [apply kframe_refl|bad]|intros v V]. apply load_val_ok in V as (_ & V & _).
  go U. go U. apply (harvest_causes P U w); [apply kframe_refl|bad|bad|exists (v_del v); now rewrite V].
Qed.
Lemma override_causes e cx a n w : errs (cause e cx w (CValidatorOverride a n)) (validator_override e cx a n w).
Proof.
  set (P := cause _ _ _ _). assert (forall x, listed x = false -> P x) as U by apply cause_un. unfold validator_override. cbv zeta.
  apply errs_bind; [apply load_config_causes; [exact U|bad]|intros c _]. go U. go U. go U.
  apply errs_bind; [apply (load_val_causes P U w); [apply kframe_refl|bad]|intros v V]. apply load_val_ok in V as (_ & V & _).
  assert (okdel w (ov_stake a)) as OD by (exists (v_del v); now rewrite V).
  apply errs_bind; [apply (harvest_causes P U w); [apply kframe_refl|bad|bad|exact OD]|intros w1 W1]. apply harvest_ok, kframe_harvest in W1.
  apply errs_bind; [apply (read_val P w); [exact W1|bad]|intros v1 V1]. apply unpack_val_ok in V1.
  apply (sync_eff_causes P U w); [|bad|exact OD]. eapply kframe_trans; [exact W1|]. apply kframe_setd. now rewrite V1.
Qed.
Lemma sync_auth_causes e cx a w : errs (cause e cx w (CValidatorSyncAuthority a)) (validator_sync_authority e cx a w).
Proof.
  set (P := cause _ _ _ _). assert (forall x, listed x = false -> P x) as U by apply cause_un. unfold validator_sync_authority.
  apply errs_bind; [apply load_config_causes; [exact U|bad]|intros c _]. go U.
  apply errs_bind; [destruct (unpack_val _); [apply errs_ok|apply errs_panic..]|intros v _]. go U.
  apply errs_bind; [apply (read_vote P w); [apply kframe_refl|bad]|intros v1 _]. go U. apply errs_ok.
Qed.
Lemma move_causes e cx a n w : errs (cause e cx w (CSolStakerMoveTokens a n)) (sol_staker_move_tokens e cx a n w).
Proof.
  set (P := cause _ _ _ _). assert (forall x, listed x = false -> P x) as U by apply cause_un. unfold sol_staker_move_tokens. cbv zeta.
  apply errs_bind; [apply load_config_causes; [exact U|bad]|intros c _]. go U.
  apply errs_bind; [apply (load_sol_causes P U w); [apply kframe_refl|bad]|intros s S]. apply load_sol_ok in S as (_ & S & _). go U.
  assert (okdel w (mv_source a)) as OS by (exists (s_del s); now rewrite S).
  apply errs_bind; [apply (harvest_causes P U w); [apply kframe_refl|bad|bad|exact OS]|intros w1 W1]. apply harvest_ok, kframe_harvest in W1.
  go U. apply errs_bind; [nu U|intros ? NE]. apply require_ok, negb_true_iff in NE. b2p NE.
  apply errs_bind; [apply (load_sol_causes P U w); [exact W1|bad]|intros t T]. apply load_sol_ok in T as (_ & T & _).
  assert (okdel w (mv_dest a)) as OT.
  { apply (okdel_kframe w1); [intros k; symmetry; apply W1|]. exists (s_del t). now rewrite T. }
  apply errs_bind; [apply (harvest_causes P U w); [exact W1|bad|bad|exact OT]|intros w2 W2]. apply harvest_ok, kframe_harvest in W2.
  pose proof (kframe_trans _ _ _ W1 W2) as K2.
  apply errs_bind; [apply (read_sol P w); [exact K2|bad]|intros s2 S2]. apply unpack_sol_ok in S2.
  apply errs_bind; [apply (read_sol P w); [exact K2|bad]|intros t2 T2]. apply unpack_sol_ok in T2.
  go U. go U. go U.
  match goal with |- errs _ (bind (sync_effective ?w4 _ _ _ _) _) => assert (kframe w w4) as K4 end.
  { eapply kframe_trans; [exact K2|]. eapply kframe_trans; [eapply kframe_put_del; rewrite S2; reflexivity|].
    eapply kframe_put_del. ws. destruct (N.eqb_spec (mv_source a) (mv_dest a)); [congruence|]. rewrite T2. reflexivity. }
  apply errs_bind; [apply (sync_eff_causes P U w); [exact K4|bad|exact OS]|intros w5 W5]. apply sync_effective_ok, kframe_resync in W5.
  apply (sync_eff_causes P U w); [eapply kframe_trans; eauto|bad|exact OT].
Qed.
Lemma resync_causes (P : error -> Prop) e w0 w ck vhr vs vk au f : (forall x, listed x = false -> P x) -> kframe w0 w ->
  (forall x, unreadable w0 ck AConfig x -> P x) -> (forall x, unreadable w0 vhr AHolder x -> P x) ->
  (forall x, unreadable w0 vk AValidator x -> P x) -> (exists v, dat (get w vk) = DVal v) -> (forall t, errs P (f t)) ->
  errs P (resync_validator e w ck vhr vs vk au f).
Proof.
  intros U K BC BH BV (v & V) F. unfold resync_validator. cbv zeta.
  assert (okdel w0 vk) as OD by (apply (okdel_kframe w); [intros k; symmetry; apply K|exists (v_del v); now rewrite V]).
  apply errs_bind; [apply (harvest_causes P U w0); auto|intros w1 W1]. apply harvest_ok, kframe_harvest in W1.
  pose proof (kframe_trans _ _ _ K W1) as K1.
  apply errs_bind; [apply (read_val P w0); auto|intros v1 V1]. apply unpack_val_ok in V1.
  apply errs_bind; [apply F|intros t _]. apply (sync_eff_causes P U w0); auto.
  eapply kframe_trans; [exact K1|]. apply kframe_setd. now rewrite V1.
Qed.
Lemma harvest_sol_causes e cx a w : errs (cause e cx w (CHarvestSolStakerRewards a)) (harvest_sol_staker_rewards e cx a w).
Proof.
  set (P := cause _ _ _ _). assert (forall x, listed x = false -> P x) as U by apply cause_un. unfold harvest_sol_staker_rewards. cbv zeta.
  apply errs_bind; [apply load_config_causes; [exact U|bad]|intros c _].
  apply errs_bind; [apply (load_sol_causes P U w); [apply kframe_refl|bad]|intros s S]. apply load_sol_ok in S as (_ & S & _).
  assert (okdel w (hs_stake a)) as OS by (exists (s_del s); now rewrite S).
  do 4 (go U). destruct (c_view cx) as [vw|]; [rewrite bind_Ok|apply errs_err, U; reflexivity].
  apply errs_bind; [apply errs_if; intros _; [destruct (hs_keeper a)|]; nu U|intros kp _].
  apply errs_bind; [apply (harvest_causes P U w); [apply kframe_refl|bad|bad|exact OS]|intros w1 W1]. apply harvest_ok, kframe_harvest in W1.
  apply errs_if; intros _; [apply errs_ok|].
  apply errs_bind; [apply (read_sol P w); [exact W1|bad]|intros s1 _].
  apply errs_bind.
  { unfold leave_previous. apply errs_if; intros _; [|go U; apply errs_ok]. go U. go U.
    apply errs_bind; [apply (read_val P w); [exact W1|bad]|intros v V]. apply unpack_val_ok in V.
    apply (resync_causes P e w); auto; [bad|bad|bad|eauto|intros t; nu U]. }
  intros w2 W2. assert (kframe w w2) as K2.
  { eapply kframe_trans; [exact W1|]. apply leave_previous_ok in W2. destruct W2; [eapply kframe_revalidated; eauto|]. rewrite Hw. apply kframe_refl. }
  apply errs_bind.
  { unfold join_current. apply errs_if; intros _; [|apply errs_ok]. go U. apply errs_if; intros _; [|apply errs_ok].
    apply errs_bind; [apply (read_val P w); [exact K2|bad]|intros v V]. apply unpack_val_ok in V.
    apply errs_bind; [|intros ? _; apply errs_ok].
    apply (resync_causes P e w); auto; [bad|bad|bad|eauto|intros t; nu U]. }
  intros [[w3 cv] cs] W3. assert (kframe w w3) as K3.
  { eapply kframe_trans; [exact K2|]. apply join_current_ok in W3. destruct W3; [eapply kframe_revalidated; eauto| |]; rewrite Hw; apply kframe_refl. }
  apply errs_bind; [apply (read_sol P w); [exact K3|bad]|intros s3 S3]. apply unpack_sol_ok in S3.
  apply (sync_eff_causes P U w); [|bad|exact OS]. eapply kframe_trans; [exact K3|]. apply kframe_setd. now rewrite S3.
Qed.
(** After a settlement with nobody else in between, only the config and the one paid hold other lamports. *)
Lemma harvest_lams e w ck vhr auth va sk w' k : harvested e w ck vhr auth va sk None w' ->
  lam (get w' k) <> lam (get w k) -> k = ck \/ k = auth.
Proof.
  intros [] N. rewrite Hlams in N. unfold paid_lam, keeper_lam in N.
  destruct (N.eqb_spec auth k); [auto|]. destruct (N.eqb_spec ck k); [auto|congruence].
Qed.
Lemma stake_causes e cx a (b : bool) n w : env_ok e -> okdel w (st_stake a) ->
  errs (cause e cx w (if b then CSolStakerStakeTokens a n else CValidatorStakeTokens a n)) (stake_tokens e cx a b n w).
Proof.
  intros OK OS. set (P := cause _ _ _ _). assert (forall x, listed x = false -> P x) as U by (intros x; destruct b; apply cause_un).
  assert (forall x, unreadable w (st_config a) AConfig x -> P x) as BC by (unfold P; destruct b; bad).
  assert (forall x, unreadable w (st_vhr a) AHolder x -> P x) as BH by (unfold P; destruct b; bad).
  assert (forall x, unreadable w (st_vault a) AToken x -> P x) as BT by (unfold P; destruct b; bad).
  assert (forall x, unreadable w (st_mint a) AMint x -> P x) as BM by (unfold P; destruct b; bad).
  assert (P TokenError) as PT by (destruct b; exact I). assert (P RewardsError) as PR by (destruct b; exact I).
  assert (In (st_authority a) [st_source a; st_mint a; st_vault a; st_source_auth a; st_pool a; st_ptok a; st_vhr a; st_vault_pda a; st_tokprog a] ->
    P UnbalancedInstruction) as PU.
  { intros IN. unfold P. destruct b; exists (st_authority a); (split; [left; reflexivity|left; exact IN]). }
  unfold stake_tokens. cbv zeta.
  apply errs_bind; [apply (harvest_causes P U w); auto using kframe_refl|intros w1 W1]. apply harvest_ok in W1.
  pose proof (kframe_harvest _ _ _ _ _ _ _ _ _ W1) as K1.
  apply errs_bind; [apply (read_config P w); auto|intros c _]. go U. go U.
  apply errs_bind; [apply (read_token P w); auto|intros t _]. go U. go U.
  apply errs_bind; [apply (read_mint P w); auto|intros m _]. go U.
  apply errs_bind; [apply okdel_errs; eapply okdel_kframe; eauto|intros d D]. apply errs_bind; [nu U|intros sa _].
  assert (kframe w (put_del w1 (st_stake a) (set_staked d sa))) as K2 by (eapply kframe_trans; [exact K1|eapply kframe_put_del; eauto]).
  match goal with |- errs _ (match ?x with _ => _ end) => destruct x as [l lmin] end.
  apply errs_bind; [apply (sync_eff_causes P U w); auto|intros w3 W3]. apply sync_effective_ok in W3.
  assert (forall k, lam (get w3 k) = lam (get w1 k)) as L3 by (intros k; destruct W3; rewrite Hlams; now ws).
  apply errs_bind; [apply cpi_causes; [exact U|]|intros ? _].
  { intros UH k IN N. rewrite L3 in N. destruct (harvest_lams _ _ _ _ _ _ _ _ _ W1 N) as [->| ->]; [destruct (UH _ IN); simpl; auto|].
    apply PU. clear - IN. simpl in *. intuition auto. }
  apply errs_bind; [now apply transfer_causes|intros w4 W4]. apply token_transfer_ok in W4.
  apply errs_bind; [apply cpi_causes; [exact U|]|intros ? _].
  { intros UH k IN N. destruct W4. rewrite Hl, L3 in N. destruct (harvest_lams _ _ _ _ _ _ _ _ _ W1 N) as [->| ->]; [destruct (UH _ IN); simpl; auto|].
    apply PU. clear - IN. simpl in *. intuition auto. }
  now apply deposit_causes.
Qed.
Lemma unstake_causes e cx a n w : errs (cause e cx w (CUnstakeTokens a n)) (unstake_tokens e cx a n w).
Proof.
  set (P := cause _ _ _ _). assert (forall x, listed x = false -> P x) as U by apply cause_un. unfold unstake_tokens. cbv zeta.
  apply errs_bind; [apply load_config_causes; [exact U|bad]|intros c _]. go U. go U.
  apply errs_bind; [apply (read_token P w); [apply kframe_refl|bad]|intros t _]. go U. apply errs_bind; [nu U|intros ? OW]. apply require_ok in OW. b2p OW.
  apply errs_bind; [eapply errs_mono; [|apply any_bad]; bad|intros [[p l] lm] LA].
  destruct (load_any_at _ _ _ _ _ _ _ OW LA) as (OS & _). fold (okdel w (un_stake a)) in OS. go U. go U.
  apply errs_bind; [now apply okdel_errs|intros d _]. go U. go U.
  apply errs_bind; [apply (read_mint P w); [apply kframe_refl|bad]|intros m _].
  apply errs_bind; [apply (harvest_causes P U w); auto using kframe_refl; bad|intros w1 W1]. apply harvest_ok in W1.
  pose proof (kframe_harvest _ _ _ _ _ _ _ _ _ W1) as K1.
  apply errs_bind; [apply okdel_errs; eapply okdel_kframe; eauto|intros d1 D1].
  apply errs_bind; [apply (read_config P w); [exact K1|bad]|intros c1 _]. go U. go U. go U. go U. go U.
  match goal with |- errs _ (bind (sync_effective ?w2 _ _ _ _) _) => assert (kframe w w2) as K2; [|assert (forall k, lam (get w2 k) = lam (get w1 k)) as L2 by (intros k; now ws)] end.
  { eapply kframe_trans; [exact K1|eapply kframe_put_del; eauto]. }
  apply errs_bind; [apply (sync_eff_causes P U w); auto; bad|intros w3 W3]. apply sync_effective_ok in W3.
  assert (forall k, lam (get w3 k) = lam (get w1 k)) as L3 by (intros k; destruct W3; now rewrite Hlams, L2).
  assert (In (un_authority a) [un_pool a; un_ptok a; un_vhr a; un_vault a; un_mint a; un_vault_pda a; un_tokprog a; un_dest a] ->
    P UnbalancedInstruction) as PU.
  { intros IN. exists (un_authority a). split; [left; reflexivity|left; exact IN]. }
  apply errs_bind; [apply cpi_causes; [exact U|]|intros ? _].
  { intros UH k IN N. rewrite L3 in N. destruct (harvest_lams _ _ _ _ _ _ _ _ _ W1 N) as [->| ->]; [destruct (UH _ IN); simpl; auto|].
    apply PU. clear - IN. simpl in *. intuition auto. }
  apply errs_bind; [apply withdraw_causes; exact I|intros w4 W4]. apply rewards_withdraw_ok in W4.
  apply errs_bind; [|intros ? _; apply transfer_causes; exact I].
  (* the rewards program moved lamports between accounts it was handed *)
  match goal with |- errs _ (cpi_check _ _ _ ?ks) => assert (lam_sum w4 ks = lam_sum w3 ks) as S4 end.
  { destruct W4. apply (lam_sum_pay w3 w4 (un_pool a) (un_vault_pda a) r); auto; apply in_or_app; left; clear; simpl; auto 10. }
  unfold cpi_check. rewrite S4. fold (cpi_check w w3 [un_config a; un_stake a] 
    ([un_pool a; un_ptok a; un_vhr a; un_vault a; un_mint a; un_vault_pda a; un_tokprog a] ++ [un_vault a; un_mint a; un_dest a; un_vault_pda a])).
  apply cpi_causes; [exact U|].
  intros UH k IN N. rewrite L3 in N. destruct (harvest_lams _ _ _ _ _ _ _ _ _ W1 N) as [->| ->]; [destruct (UH _ IN); simpl; auto|].
  apply PU. clear - IN. simpl in *. intuition auto.
Qed.
Lemma slash_causes e cx a (b : bool) n w c l lm : okdel w (sl_stake a) ->
  errs (cause e cx w (if b then CSlashSolStakerStake a n else CSlashValidatorStake a n)) (slash_stake e cx a c l lm n w).
Proof.
  intros OS. set (P := cause _ _ _ _). assert (forall x, listed x = false -> P x) as U by (intros x; destruct b; apply cause_un).
  assert (forall x, unreadable w (sl_config a) AConfig x -> P x) as BC by (unfold P; destruct b; bad).
  assert (forall x, unreadable w (sl_vhr a) AHolder x -> P x) as BH by (unfold P; destruct b; bad).
  assert (forall x, unreadable w (sl_vault a) AToken x -> P x) as BT by (unfold P; destruct b; bad).
  assert (forall x, unreadable w (sl_mint a) AMint x -> P x) as BM by (unfold P; destruct b; bad).
  assert (P TokenError) as PT by (destruct b; exact I).
  unfold slash_stake. apply errs_bind; [destruct (e_create_vault _ _ _); nu U|intros vs _]. go U.
  apply errs_bind; [apply (harvest_causes P U w); auto using kframe_refl|intros w1 W1]. apply harvest_ok in W1.
  pose proof (kframe_harvest _ _ _ _ _ _ _ _ _ W1) as K1.
  apply errs_bind; [apply (read_config P w); auto|intros c1 _]. go U. go U. go U. go U.
  apply errs_bind; [apply (read_token P w); auto|intros t _]. go U.
  apply errs_bind.
  - unfold process_slash_for_delegation. cbv zeta. go U. go U.
    apply errs_bind; [apply okdel_errs; eapply okdel_kframe; eauto|intros d D]. apply errs_bind; [nu U|intros sa _].
    assert (kframe w (put_del w1 (sl_stake a) (set_staked d sa))) as K2 by (eapply kframe_trans; [exact K1|eapply kframe_put_del; eauto]).
    apply errs_if; intros _; [|apply errs_ok]. apply errs_bind; [apply (read_mint P w); auto|intros m _].
    apply errs_bind; [apply cpi_causes; [exact U|]|intros ? _; now apply burn_causes].
    intros UH k IN N. wsi N. destruct (harvest_lams _ _ _ _ _ _ _ _ _ W1 N) as [->| ->]; [destruct (UH _ IN); simpl; auto|].
    unfold P. destruct b; exists (sl_authority a); (split; [left; reflexivity|left; exact IN]).
  - intros w2 W2. apply (sync_eff_causes P U w); auto. eapply kframe_trans; [exact K1|].
    unfold process_slash_for_delegation in W2. cbv zeta in W2. stepg W2 G1. stepg W2 G2. stepn W2 d D. stepn W2 s2 S2.
    destruct (_ <? _) in W2.
    + stepn W2 m M. stepn W2 u C. apply token_burn_ok, kframe_burned in W2. eapply kframe_trans; [eapply kframe_put_del; eauto|exact W2].
    + injection W2 as <-. eapply kframe_put_del; eauto.
Qed.
Lemma holder_causes e cx a w : env_ok e -> inv e w -> errs (cause e cx w (CHarvestHolderRewards a)) (harvest_holder_rewards e cx a w).
Proof.
  intros OK IV. set (P := cause _ _ _ _). assert (forall x, listed x = false -> P x) as U by apply cause_un. unfold harvest_holder_rewards.
  apply errs_bind; [apply load_config_causes; [exact U|bad]|intros c C]. apply load_config_at in C. go U.
  apply errs_bind; [apply (read_token P w); [apply kframe_refl|bad]|intros t _]. go U.
  assert (e_create_vault e (hh_config a) (cfg_bump c) = Some (e_vault e (hh_config a))) as CV.
  { destruct (sane_cfg _ _ (i_sane _ _ IV) _ _ C) as (_ & _ & -> & _). apply (ok_bump _ OK). }
  rewrite CV, bind_Ok. apply errs_bind; [nu U|intros ? VA]. apply require_ok in VA. b2p VA. go U. go U.
  destruct (sane_cfg _ _ (i_sane _ _ IV) _ _ C) as (_ & _ & _ & OV & DV). rewrite <- VA in OV, DV.
  apply errs_bind; [apply (sync_config_causes P U w); [apply kframe_refl|bad]|intros w1 W1]. apply sync_config_lamports_ok in W1.
  pose proof (kframe_synced _ _ _ W1) as K1.
  assert (forall k, own (get w1 k) = own (get w k) /\ lam (get w1 k) = lam (get w k)) as OL1 by (intros k; destruct W1; subst w1; split; now ws).
  apply errs_bind; [apply rharvest_causes; exact I|intros w2 W2]. apply rewards_harvest_ok in W2.
  pose proof (kframe_trans _ _ _ K1 (kframe_rharvested _ _ _ _ _ _ _ _ _ _ W2)) as K2.
  assert (own (get w2 (hh_vault_pda a)) = own (get w (hh_vault_pda a)) /\ lam (get w (hh_vault_pda a)) <= lam (get w2 (hh_vault_pda a))) as [O2 L2].
  { destruct W2. rewrite Ho, Hl. destruct (OL1 (hh_vault_pda a)) as [-> E]. split; [auto|]. rewrite <- E.
    unfold pay_lam. destruct (_ =? 0); [lia|]. destruct (N.eqb_spec (hh_vault_pda a) (hh_vault_pda a)); [|congruence].
    destruct (N.eqb_spec (hh_pool a) (hh_vault_pda a)) as [EQ|]; [|lia].
    exfalso. rewrite EQ in Hpo. rewrite (proj1 (OL1 _)) in Hpo. destruct (prog_ids _ OK) as (? & ? & ? & ? & ?).
    pose proof (ok_ids e OK) as ND. clear - OV Hpo ND. rewrite !NoDup_cons in ND. destruct ND as (A & B & _).
    rewrite !not_elem_of_cons in A, B. destruct OV as [OV|OV]; rewrite OV in Hpo; intuition congruence. }
  assert (data_len (dat (get w2 (hh_vault_pda a))) = 0) as DL.
  { rewrite (kind_len _ _ (K2 (hh_vault_pda a))), DV. reflexivity. }
  apply errs_bind.
  { unfold transfer_excess. cbv zeta. rewrite DL.
    apply errs_bind; [apply errs_require; intros F; apply N.leb_gt in F; unfold P; simpl; lia|intros ? _].
    apply errs_bind; [apply errs_require; intros F; apply orb_false_iff in F as [_ F]; apply N.eqb_neq in F; unfold P; simpl; congruence|intros ? _].
    go U. apply errs_ok. }
  intros w3 W3. assert (kframe w w3) as K3.
  { eapply kframe_trans; [exact K2|]. unfold transfer_excess in W3. cbv zeta in W3. stepg W3 G1. stepg W3 G2. stepn W3 u G3. injection W3 as <-.
    apply kframe_same. intros k. now ws. }
  apply errs_bind; [apply (read_config P w); [exact K3|bad]|intros ? _]. apply errs_ok.
Qed.

(** ** The runtime *)
Lemma even_harvest e w ck vhr auth va sk kp w' : harvested e w ck vhr auth va sk kp w' -> auth <> ck -> kp <> Some ck ->
  total_lamports w' = total_lamports w.
Proof.
  intros H NA NK. destruct (total_harvest _ _ _ _ _ _ _ _ _ H NK) as (c & d & h & rpt & sr & hr & _ & ->).
  destruct (N.eqb_spec auth ck); [congruence|lia].
Qed.
Lemma even_resync w ck sk l w' : resynced w ck sk l w' -> total_lamports w' = total_lamports w.
Proof. intros []. now apply total_same. Qed.
Lemma even_revalidated e w ck vhr vs vk vauth f w' : revalidated e w ck vhr vs vk vauth f w' -> vauth <> ck ->
  total_lamports w' = total_lamports w.
Proof.
  intros [] N. rewrite (even_resync _ _ _ _ _ H3), H2, total_setd. eapply even_harvest; eauto.
Qed.
Lemma even_staked e cx a n w w' : staked_ok e cx a n w w' -> st_authority a <> st_config a -> total_lamports w' = total_lamports w.
Proof.
  intros [] N. destruct H5. rewrite (total_pay _ _ _ _ _ Hlp Hl). destruct H4. rewrite (total_same _ _ Hl0).
  rewrite (even_resync _ _ _ _ _ H3), H2, total_put_del. eapply even_harvest; eauto; try discriminate.
Qed.
Lemma even_slashed e cx a n w w' : slashed_ok e cx a n w w' -> sl_authority a <> sl_config a -> total_lamports w' = total_lamports w.
Proof.
  intros [] N. rewrite (even_resync _ _ _ _ _ H4). transitivity (total_lamports w2).
  { destruct H3 as [[_ ->]|(_ & _ & [])]; [auto|]. now apply total_same. }
  rewrite H2, total_put_del. eapply even_harvest; eauto; try discriminate.
Qed.
Lemma total_did e cx w w' c : env_ok e -> sane e w -> did e cx w w' c ->
  (forall k, In k (payees c) -> ~ In (k, AConfig) (reads c)) -> total_lamports w' = total_lamports w.
Proof.
  intros OK S D N. destruct D; cbn [payees reads] in N.
  - destruct H. now apply total_same.
  - destruct H. now apply total_same.
  - destruct H. eapply even_staked; eauto. intros E. apply (N (st_authority a)); simpl; rewrite ?E; auto.
  - destruct H. destruct H1 as [cs rpt Hc1 Hl1 Hr1 Hw1].
    rewrite H4, total_setd, H3. clear H3 H4 Hov. set (v := hh_vault_pda a) in *. set (m := e_rent e _) in *.
    replace m with (lam (get w2 v) - (lam (get w2 v) - m)) at 1 by lia.
    replace m with (lam (get w2 v) - (lam (get w2 v) - m)) at 2 by lia.
    rewrite total_transfer by lia. destruct H2. rewrite (total_pay _ _ _ _ _ Hlp Hl), Hw1. apply total_setd.
  - destruct H. eapply even_harvest; eauto; try discriminate. intros E. apply (N (hv_authority a)); simpl; rewrite ?E; auto.
  - destruct H. eapply even_slashed; eauto. intros E. apply (N (sl_authority a)); simpl; rewrite ?E; auto.
  - destruct H. subst w'. apply total_setd.
  - destruct H. subst w'. apply total_setd.
  - destruct H. now apply total_same.
  - destruct H. eapply even_staked; eauto. intros E. apply (N (st_authority a)); simpl; rewrite ?E; auto.
  - assert (hs_authority a <> hs_config a) as N1 by (intros E; apply (N (hs_authority a)); simpl; rewrite ?E; auto).
    assert (hs_prev_auth a <> hs_config a) as N2 by (intros E; apply (N (hs_prev_auth a)); simpl; rewrite ?E; auto).
    assert (hs_cur_auth a <> hs_config a) as N3 by (intros E; apply (N (hs_cur_auth a)); simpl; rewrite ?E; auto).
    destruct H; [eapply even_harvest; eauto; try discriminate|].
    assert (Some kp <> Some (hs_config a)) as N4 by (intros [= E]; apply (N kp); [rewrite Hkp; apply in_or_app; right; left; auto|left; now rewrite E]).
    rewrite (even_resync _ _ _ _ _ H5), H4, total_setd.
    transitivity (total_lamports w2); [destruct H3; [eapply even_revalidated; eauto|now rewrite Hw..]|].
    transitivity (total_lamports w1); [destruct H2; [eapply even_revalidated; eauto|now rewrite Hw]|].
    eapply even_harvest; eauto.
  - destruct H. transitivity (total_lamports w4); [destruct H5; now apply total_same|].
    transitivity (total_lamports w3); [destruct H4; now apply (total_pay _ _ _ _ _ Hlp Hl)|].
    rewrite (even_resync _ _ _ _ _ H3), H2, total_put_del. eapply even_harvest; eauto; try discriminate.
    intros E. apply (N (un_authority a)); simpl; rewrite ?E; auto.
  - destruct H. eapply even_slashed; eauto. intros E. apply (N (sl_authority a)); simpl; rewrite ?E; auto.
  - assert (mv_authority a <> mv_config a) as N1 by (intros E; apply (N (mv_authority a)); simpl; rewrite ?E; auto).
    destruct H. rewrite (even_resync _ _ _ _ _ H6), (even_resync _ _ _ _ _ H5), H4, total_put_del, H3, total_put_del.
    transitivity (total_lamports w1); (eapply even_harvest; [eassumption|auto|try discriminate]).
  - destruct H. rewrite (even_resync _ _ _ _ _ H3), H2, total_setd. eapply even_harvest; eauto; try discriminate.
    intros E. apply (N (ov_stake_auth a)); simpl; rewrite ?E; auto.
  - destruct H. subst w'. apply total_put_del.
Qed.
Lemma runtime_causes e cx w w' c : env_ok e -> sane e w -> handler e cx c w = Ok w' ->
  errs (cause e cx w c) (runtime_check cx w w').
Proof.
  intros OK S H. unfold runtime_check. apply errs_bind; [|intros ? _]; apply errs_require; intros F.
  - apply N.eqb_neq in F.
    destruct (existsb (fun k => existsb (fun p => match p with (j, AConfig) => j =? k | _ => false end) (reads c)) (payees c)) eqn:E.
    + apply existsb_exists in E as (k & IK & E). apply existsb_exists in E as ([j q] & IJ & E).
      destruct q; try discriminate. b2p E. subst j. exists k. auto.
    + destruct F. symmetry. eapply total_did; eauto using handler_did. intros k IK IR.
      rewrite <- not_true_iff_false in E. apply E. apply existsb_exists. exists k. split; [auto|].
      apply existsb_exists. exists (k, AConfig). split; [auto|apply N.eqb_refl].
  - assert (exists k, get w k <> get w' k /\ writable cx k = false) as (k & N & W).
    { revert F. generalize (map fst (map_to_list w ++ map_to_list w')). intros l. induction l as [|k l IH]; simpl; [discriminate|].
      intros F. apply andb_false_iff in F as [F|F]; [|auto]. apply orb_false_iff in F as [F1 F2]. exists k. split; [|auto].
      now apply bool_decide_eq_false in F1. }
    exists w', k. split; [auto|]. split; [congruence|]. intros IN. unfold writable in W.
    rewrite <- not_true_iff_false in W. apply W. apply existsb_exists. exists k. split; [auto|apply N.eqb_refl].
Qed.

(** ** C89 *)
Theorem C89_errors_cause e cx c w x : env_ok e -> reachable e w -> run e cx c w = Err x -> cause e cx w c x.
Proof.
  intros OK R. pose proof (inv_reachable _ _ OK R) as IV. revert x. fold (errs (cause e cx w c) (run e cx c w)).
  pose proof (cause_un e cx w c) as U.
  unfold run. apply errs_bind; [|intros w1 W1; apply errs_bind; [eapply runtime_causes; eauto; apply IV|intros; apply errs_ok]].
  destruct c; simpl handler.
  - now apply init_config_causes.
  - now apply init_val_causes.
  - unfold validator_stake_tokens.
    apply errs_bind; [apply load_config_causes; [exact U|bad]|intros c _].
    apply errs_bind; [apply (load_val_causes _ U w); [apply kframe_refl|bad]|intros v V]. apply load_val_ok in V as (_ & V & _).
    apply (stake_causes e cx a false); auto. exists (v_del v). now rewrite V.
  - now apply holder_causes.
  - apply harvest_val_causes.
  - unfold slash_validator_stake.
    apply errs_bind; [apply load_config_causes; [exact U|bad]|intros c _].
    apply errs_bind; [apply (load_val_causes _ U w); [apply kframe_refl|bad]|intros v V]. apply load_val_ok in V as (_ & V & _).
    apply (slash_causes e cx a false). exists (v_del v). now rewrite V.
  - apply set_authority_causes.
  - apply update_config_causes.
  - now apply init_sol_causes.
  - unfold sol_staker_stake_tokens.
    apply errs_bind; [apply load_config_causes; [exact U|bad]|intros c _].
    apply errs_bind; [apply (load_sol_causes _ U w); [apply kframe_refl|bad]|intros v V]. apply load_sol_ok in V as (_ & V & _).
    apply (stake_causes e cx a true); auto. exists (s_del v). now rewrite V.
  - apply harvest_sol_causes.
  - apply unstake_causes.
  - unfold slash_sol_staker_stake.
    apply errs_bind; [apply load_config_causes; [exact U|bad]|intros c _].
    apply errs_bind; [apply (load_sol_causes _ U w); [apply kframe_refl|bad]|intros v V]. apply load_sol_ok in V as (_ & V & _).
    apply (slash_causes e cx a true). exists (s_del v). now rewrite V.
  - apply move_causes.
  - apply override_causes.
  - apply sync_auth_causes.
Qed.
Print Assumptions C89_errors_cause.

(* Attempts that end with each of these errors: a staker's stake handed to the
   validators' instruction, a configuration that was never initialised, a holder
   account that does not exist yet, more tokens than there are, a reward the pool
   cannot pay, a stake not passed as writable, and rewards due to the owner of the
   tokens. *)
Definition kpda2 : N := e_vault denv kcfg2.
Definition second : list act :=
  [ Call (cx [] 0 None 0) (CInitializeConfig (InitConfigA kcfg2 kmint kpda2 kvtok2 (e_holder denv kpda2)) slasher gov 1000 5000 100 docs);
    Call (cx [] 0 None 0) (CInitializeValidatorStake (InitValA kcfg2 (e_duna denv alice docs) (e_val denv vote1 kcfg2) vote1)) ].
Definition narrowed : ctx := Ctx [bob] (remove N.eq_dec ksol2 everything) 0 None (5 * 10 ^ 18).
Definition failures : list (list act * ctx * call * error) :=
  let l := firstn 15 story in
  [ (l, cx [bob] 0 None 0, CValidatorStakeTokens (stake_accts_of ksol2 bob btok bob) 5, InvalidAccountData);
    (l, cx [gov] 0 None 0, CUpdateConfig (UpdateConfigA kcfg2 gov) (CooldownTimeSeconds 5), UninitializedAccount);
    (second, cx [] 0 None 0, CHarvestValidatorRewards (HarvestValA kcfg2 (e_holder denv kpda2) (e_val denv vote1 kcfg2) alice), BorshIoError);
    (l, cx [bob] 0 None (5 * 10 ^ 18), CSolStakerStakeTokens (stake_accts_of ksol2 bob btok bob) 500000, TokenError);
    (l, cx [] 0 None (10 ^ 40), CHarvestHolderRewards (HarvestHolderA kcfg kpool kptok kvtok kvhr kpda kmint), RewardsError);
    (l, narrowed,
       CSolStakerStakeTokens (stake_accts_of ksol2 bob btok bob) 5, ReadonlyAccountModified);
    (setup ++ [Pay carol kcfg 1000000], cx [bob] 0 None 0,
       CSolStakerStakeTokens (stake_accts_of ksol1 bob btok bob) 20, UnbalancedInstruction) ].
Definition fails (f : list act * ctx * call * error) : bool :=
  match f with (l, x, c, y) => runs l && match run denv x c (at_end l) with Err z => if decide (z = y) then true else false | _ => false end end.
Example C89_case : forallb fails failures = true.
Proof. vm_compute. reflexivity. Qed.
Lemma failure_cause l x c y : In (l, x, c, y) failures -> cause denv x (at_end l) c y.
Proof.
  intros I. pose proof C89_case as F. rewrite forallb_forall in F. specialize (F _ I). unfold fails in F.
  apply andb_true_iff in F as [R F]. apply C89_errors_cause; [apply denv_ok|now apply at_end_reachable|].
  destruct (run denv x c (at_end l)); try discriminate. destruct (decide (e = y)); [congruence|discriminate].
Qed.
(* What the first, the sixth and the last say. *)
Example C89_kind_case : exists k q,
  In (k, q) (reads (CValidatorStakeTokens (stake_accts_of ksol2 bob btok bob) 5)) /\
  unreadable (at_end (firstn 15 story)) k q InvalidAccountData.
Proof.
  assert (In (firstn 15 story, cx [bob] 0 None 0, CValidatorStakeTokens (stake_accts_of ksol2 bob btok bob) 5, InvalidAccountData) failures) as I.
  { unfold failures. cbv zeta. now left. }
  apply failure_cause in I. unfold cause in I. destruct I as [I|(_ & a & v & I & _)]; [exact I|discriminate I].
Qed.
Example C89_readonly_case : exists w' k,
  get w' k <> get (at_end (firstn 15 story)) k /\ ~ In k (c_writable narrowed).
Proof.
  assert (In (firstn 15 story, narrowed,
       CSolStakerStakeTokens (stake_accts_of ksol2 bob btok bob) 5, ReadonlyAccountModified) failures) as I.
  { unfold failures. cbv zeta. do 5 right. now left. }
  apply failure_cause in I. unfold cause in I. destruct I as (w' & k & _ & H). exists w', k. exact H.
Qed.
Example C89_unbalanced_case : exists k, In k [bob] /\
  (In k (handed (CSolStakerStakeTokens (stake_accts_of ksol1 bob btok bob) 20)) \/
   In (k, AConfig) (reads (CSolStakerStakeTokens (stake_accts_of ksol1 bob btok bob) 20))).
Proof.
  assert (In (setup ++ [Pay carol kcfg 1000000], cx [bob] 0 None 0,
       CSolStakerStakeTokens (stake_accts_of ksol1 bob btok bob) 20, UnbalancedInstruction) failures) as I.
  { unfold failures. cbv zeta. do 6 right. now left. }
  apply failure_cause in I. unfold cause in I. exact I.
Qed.
