(** C73: errors tell the truth. *)
From Verif Require Import Base Types Layout Instr Math External Processor Runtime History Spec
  WorldLemmas Effects Handlers Evolve Sane Inv SpecError Errors Demo.

Lemma unsigned_intro cx k : signed cx k = false -> unsigned cx k.
Proof.
  intros H I. assert (signed cx k = true); [|congruence]. apply existsb_exists. exists k. split; [exact I|apply N.eqb_refl].
Qed.
Global Instance stake_error_dec : EqDecision stake_error.
Proof. solve_decision. Defined.
Global Instance error_dec : EqDecision error.
Proof. solve_decision. Defined.
Ltac req := apply errs_require; intros F;
  first [rewrite negb_false_iff in F | idtac]; first [rewrite N.eqb_neq in F | rewrite N.eqb_eq in F | rewrite N.leb_gt in F
    | rewrite N.ltb_ge in F | rewrite bool_decide_eq_false in F | apply unsigned_intro in F | idtac].
(* an unspecific step *)
Ltac uns U := eapply errs_mono; [exact U|];
  auto using unpack_config_errs, unpack_val_errs, unpack_sol_errs, unpack_token_errs, unpack_mint_errs, vote_errs, holder_errs,
    del_errs, sync_errs, sync_eff_errs, excess_errs, transfer_errs, burn_errs, assign_errs, allocate_errs, rharvest_errs,
    deposit_errs, withdraw_errs, add64_errs, csub_errs, deact_errs.
Ltac un := intros x X; destruct x as [ | | | | | | | | | | | | | | |y| | | | | | | | ]; try destruct X; exact I.
Lemma load_config_at e w k c : load_config e w k = Ok c -> config_at e w k c.
Proof.
  unfold load_config. intros H. stepg H OW. unfold unpack_config in H. split; [exact OW|].
  destruct (dat (get w k)); try (destruct (_ =? _); discriminate). now injection H as ->.
Qed.
Lemma load_val_at e w k ck v : load_val e w k ck = Ok v -> val_at e w k v /\ stake_of e w ck k = Some (v_del v).
Proof.
  unfold load_val. intros H. stepg H OW. stepn H u V. stepg H K. injection H as ->. unfold unpack_val in V.
  assert (dat (get w k) = DVal v) as D by (destruct (dat (get w k)); try (destruct (_ =? _); discriminate); now injection V as ->).
  split; [split; auto|]. unfold stake_of, stake_in. now rewrite OW, N.eqb_refl, D, <- K, N.eqb_refl.
Qed.
Lemma load_sol_at e w k ck v : load_sol e w k ck = Ok v -> sol_at e w k v /\ stake_of e w ck k = Some (s_del v).
Proof.
  unfold load_sol. intros H. stepg H OW. stepn H u V. stepg H K. injection H as ->. unfold unpack_sol in V.
  assert (dat (get w k) = DSol v) as D by (destruct (dat (get w k)); try (destruct (_ =? _); discriminate); now injection V as ->).
  split; [split; auto|]. unfold stake_of, stake_in. now rewrite OW, N.eqb_refl, D, <- K, N.eqb_refl.
Qed.
Lemma token_of w k t : unpack_token (dat (get w k)) = Ok t -> dat (get w k) = DToken t.
Proof. unfold unpack_token. destruct (dat (get w k)); try (destruct (_ =? _); discriminate). now intros [= ->]. Qed.
Lemma config_of w k t : unpack_config (dat (get w k)) = Ok t -> dat (get w k) = DConfig t.
Proof. unfold unpack_config. destruct (dat (get w k)); try (destruct (_ =? _); discriminate). now intros [= ->]. Qed.
Lemma of_stake_del e w ck k d d' P : stake_of e w ck k = Some d -> del_of (dat (get w k)) = Ok d' -> (P d' : Prop) -> of_stake e w ck k P.
Proof. intros S D H. destruct (stake_of_some _ _ _ _ _ S) as (_ & D0 & _). exists d. split; [exact S|]. congruence. Qed.

Lemma set_authority_tells e cx a t w : errs (reason e cx w (CSetAuthority a t)) (set_authority_ix e cx a t w).
Proof.
  set (P := reason _ _ _ _). assert (forall x, unspecific x -> P x) as U by un. unfold set_authority_ix.
  apply errs_bind; [req; exact F|intros _ _]. apply errs_bind; [apply load_config_errs; auto; intros F; exact F|intros c C].
  apply load_config_at in C. cbv zeta.
  apply errs_bind; [req; exists c; auto|intros _ _]. apply errs_bind; [req; exists c; auto|intros _ _]. apply errs_ok.
Qed.
Lemma update_config_tells e cx a f w : errs (reason e cx w (CUpdateConfig a f)) (update_config e cx a f w).
Proof.
  set (P := reason _ _ _ _). assert (forall x, unspecific x -> P x) as U by un. unfold update_config.
  apply errs_bind; [apply load_config_errs; auto; intros F; exact F|intros c C]. apply load_config_at in C.
  apply errs_bind; [req; exists c; auto|intros _ _]. apply errs_bind; [req; exists c; auto|intros _ _].
  apply errs_bind; [req; exact F|intros _ _]. apply errs_bind; [|intros; apply errs_ok].
  destruct f as [n|n|n]; try apply errs_ok. apply errs_bind; [req; exists n; auto|intros; apply errs_ok].
Qed.
Lemma init_config_tells e cx a s au cd bps sy du w :
  errs (reason e cx w (CInitializeConfig a s au cd bps sy du)) (initialize_config e cx a s au cd bps sy du w).
Proof.
  set (P := reason _ _ _ _). assert (forall x, unspecific x -> P x) as U by un. unfold initialize_config. cbv zeta.
  apply errs_bind; [uns U|intros m _]. apply errs_bind; [req; exact F|intros u1 V]. apply require_ok in V. b2p V.
  apply errs_bind; [req; left; unfold data_empty in F; now apply N.eqb_neq in F|intros u2 _].
  apply errs_bind; [uns U|intros w1 W1].
  assert ((forall k, dat (get w1 k) = dat (get w k)) /\ (forall k, lam (get w1 k) = lam (get w k)) /\
    (forall k, own (get w1 k) = own (get w k) \/ own (get w1 k) = e_prog e)) as (D & L & O).
  { unfold system_assign in W1. destruct (_ =? _); [injection W1 as <-; auto|]. stepg W1 G. injection W1 as <-.
    split; [|split]; intros k; ws; auto. destruct (_ =? k); auto. }
  apply errs_bind; [req; unfold P; simpl; congruence|intros u3 _].
  apply errs_bind; [uns U|intros t T]. apply token_of in T. rewrite D in T.
  apply errs_bind; [req; exists t; auto|intros u4 _]. apply errs_bind; [req; exists t; auto|intros u5 _].
  apply errs_bind; [req; exists t; auto|intros u6 _]. apply errs_bind; [req; exists t; auto|intros u7 _].
  apply errs_bind; [req; exists t; split; [auto|lia]|intros u8 _].
  apply errs_bind; [req; unfold P; simpl; unfold foreign; destruct (O (ic_config a)); congruence|intros u9 _].
  apply errs_bind; [req; unfold P; simpl; now rewrite D in F|intros u10 LN]. apply require_ok in LN. b2p LN.
  apply errs_bind; [|intros u11 _].
  { req. right. intros [n Z]. rewrite D in *. unfold config_uninitialized in F. rewrite Z in *. simpl in LN, F. rewrite repeat_length in LN.
    assert (n = 192%nat) as -> by (unfold CONFIG_LEN in LN; lia). vm_compute in F. discriminate. }
  apply errs_bind; [req; unfold P; simpl; now rewrite L in F|intros u12 _].
  apply errs_bind; [req; exact F|intros u13 _]. apply errs_ok.
Qed.
Lemma check_duna_errs (P : error -> Prop) e w s doc h : (doc <> e_duna e s h -> P InvalidSeeds) ->
  (head (raw_bytes e (dat (get w doc))) <> Some 1 -> P (Stake DunaDocumentNotInitialized)) -> errs P (check_duna e w s doc h).
Proof.
  intros A B. unfold check_duna. apply errs_bind; [req; auto|intros ? _]. req. auto.
Qed.
Lemma init_val_tells e cx a w : errs (reason e cx w (CInitializeValidatorStake a)) (initialize_validator_stake e cx a w).
Proof.
  set (P := reason _ _ _ _). assert (forall x, unspecific x -> P x) as U by un. unfold initialize_validator_stake. cbv zeta.
  apply errs_bind; [apply load_config_errs; auto; intros F; left; exact F|intros c C]. apply load_config_at in C.
  apply errs_bind; [req; right; exact F|intros u1 _].
  apply errs_bind; [uns U|intros v V]. unfold vote_withdrawer in V.
  assert (dat (get w (iv_vote a)) = DVote v) as D by (destruct (dat (get w (iv_vote a))); try discriminate; now injection V as ->).
  apply errs_bind; [apply check_duna_errs; intros F; [right; exists c; split; [auto|exists v; auto]|exact F]|intros u2 _].
  apply errs_bind; [req; left; exact F|intros u3 _].
  apply errs_bind; [req; unfold data_empty in F; now apply N.eqb_neq in F|intros u4 _].
  apply errs_bind; [req; exact F|intros u5 _].
  apply errs_bind; [uns U|intros w1 _]. apply errs_bind; [uns U|intros w2 _]. apply errs_ok.
Qed.
Lemma init_sol_tells e cx a w : errs (reason e cx w (CInitializeSolStakerStake a)) (initialize_sol_staker_stake e cx a w).
Proof.
  set (P := reason _ _ _ _). assert (forall x, unspecific x -> P x) as U by un. unfold initialize_sol_staker_stake. cbv zeta.
  apply errs_bind; [apply load_config_errs; auto; intros F; left; exact F|intros c C]. apply load_config_at in C.
  apply errs_bind; [req; exact F|intros u1 _].
  apply errs_bind; [destruct (c_view cx) eqn:E; [apply errs_ok|apply errs_err; exact E]|intros vw V].
  assert (c_view cx = Some vw) as VW by (destruct (c_view cx); [now injection V as ->|discriminate]). clear V.
  apply errs_bind; [req; exists vw; auto|intros u2 _].
  apply errs_bind; [req; exact I|intros u3 _].
  apply errs_bind; [apply check_duna_errs; intros F; [right; exists vw; split; [auto|right; right; exists c; auto]|exact F]|intros u4 _].
  apply errs_bind; [req; right; exact F|intros u5 _].
  apply errs_bind; [req; right; exists vw; auto|intros u6 _].
  apply errs_bind; [uns U|intros v _].
  apply errs_bind; [req; left; exact F|intros u7 _].
  apply errs_bind; [req; unfold data_empty in F; now apply N.eqb_neq in F|intros u8 _].
  apply errs_bind; [req; right; exists vw; auto|intros u9 _].
  apply errs_bind; [apply errs_if; intros _; [apply errs_ok|apply errs_if; intros _; [apply errs_ok|apply errs_panic]]|intros au _].
  apply errs_bind; [req; exact F|intros u10 _].
  apply errs_bind; [uns U|intros w1 _]. apply errs_bind; [uns U|intros w2 _]. apply errs_bind; [uns U|intros v2 _].
  apply errs_bind; [uns U|intros t _]. apply errs_ok.
Qed.
Lemma stake_tells e cx a (b : bool) n w c d : config_at e w (st_config a) c -> stake_of e w (st_config a) (st_stake a) = Some d ->
  errs (reason e cx w (if b then CSolStakerStakeTokens a n else CValidatorStakeTokens a n)) (stake_tokens e cx a b n w).
Proof.
  intros C S. set (P := reason _ _ _ _).
  assert (forall x, unspecific x -> P x) as U by (unfold P; destruct b; un).
  assert (P (Stake InvalidAuthority) = of_stake e w (st_config a) (st_stake a) (fun d => st_authority a <> authority d)) as PA by (destruct b; reflexivity).
  assert (P (Stake InvalidVaultHolderRewardsSeeds) = (st_vhr a <> e_holder e (e_vault e (st_config a)))) as PV by (destruct b; reflexivity).
  assert (P (Stake IncorrectVaultPdaAccount) = (st_vault_pda a <> e_vault e (st_config a))) as PP by (destruct b; reflexivity).
  assert (P (Stake IncorrectVaultAccount) = of_config e w (st_config a) (fun c => st_vault a <> cfg_vault c)) as PC by (destruct b; reflexivity).
  assert (P (Stake InvalidMint) = of_token w (st_vault a) (fun t => t_mint t <> st_mint a)) as PM by (destruct b; reflexivity).
  assert (P (Stake InvalidAmount) = (n = 0)) as PN by (destruct b; reflexivity).
  assert (P AccountBorrowFailed = shared (st_config a) (st_stake a)
          [st_source a; st_mint a; st_vault a; st_source_auth a; st_pool a; st_ptok a; st_vhr a; st_vault_pda a; st_tokprog a]) as PB by (destruct b; reflexivity).
  unfold stake_tokens. cbv zeta.
  apply errs_bind; [apply harvest_errs; auto|intros w1 W1].
  { intros d' D' N. rewrite PA. eapply of_stake_del; eauto. }
  { intros F. now rewrite PV. }
  pose proof (harvest_like _ _ _ _ _ _ _ _ _ W1) as L.
  apply errs_bind; [uns U|intros c1 C1]. apply config_of in C1.
  assert (cfg_vault c1 = cfg_vault c) as VE.
  { destruct (like_config e w w1 (st_config a) c1 L) as (c0 & [_ C0] & V0 & _); [split; [rewrite (al_own _ _ L); apply C|auto]|].
    destruct C as [_ C]. congruence. }
  apply errs_bind; [req; now rewrite PP|intros u1 _].
  apply errs_bind; [req; rewrite PC; exists c; split; [auto|congruence]|intros u2 _].
  apply errs_bind; [uns U|intros t T]. apply token_of, (like_token _ _ _ _ L) in T.
  apply errs_bind; [|intros u3 _].
  { apply errs_require. intros F. destruct b; [|discriminate]. simpl in F. apply N.eqb_neq in F. split; [eauto|]. exists t. auto. }
  apply errs_bind; [req; rewrite PM; exists t; auto|intros u4 _].
  apply errs_bind; [uns U|intros m _].
  apply errs_bind; [req; rewrite PN; lia|intros u5 _].
  apply errs_bind; [uns U|intros d1 _]. apply errs_bind; [uns U|intros s1 _].
  match goal with |- errs _ (match ?x with _ => _ end) => destruct x as [l lmin] end.
  apply errs_bind; [uns U|intros w2 _].
  apply errs_bind; [apply cpi_errs; auto; intros F; rewrite PB; destruct F as [F|F]; [left|right]; simpl in *; intuition|intros u6 _].
  apply errs_bind; [uns U|intros w3 _].
  apply errs_bind; [apply cpi_errs; auto; intros F; rewrite PB; destruct F as [F|F]; [left|right]; simpl in *; intuition|intros u7 _].
  uns U.
Qed.
Lemma harvest_val_tells e cx a w : errs (reason e cx w (CHarvestValidatorRewards a)) (harvest_validator_rewards e cx a w).
Proof.
  set (P := reason _ _ _ _). assert (forall x, unspecific x -> P x) as U by un. unfold harvest_validator_rewards. cbv zeta.
  apply errs_bind; [apply load_config_errs; auto; intros F; left; exact F|intros c C].
  apply errs_bind; [apply load_val_errs; [exact U|intros F; right; exact F|intros F; left; exact F]|intros v V]. apply load_val_at in V as [V S].
  apply errs_bind; [req; exists (v_del v); auto|intros u1 _].
  apply errs_bind; [req; right; exact F|intros u2 K]. apply require_ok in K. b2p K.
  apply harvest_errs; [exact U| |contradiction]. intros d D N. eapply of_stake_del; eauto.
Qed.
Lemma override_tells e cx a n w : errs (reason e cx w (CValidatorOverride a n)) (validator_override e cx a n w).
Proof.
  set (P := reason _ _ _ _). assert (forall x, unspecific x -> P x) as U by un. unfold validator_override. cbv zeta.
  apply errs_bind; [apply load_config_errs; auto; intros F; left; exact F|intros c C]. apply load_config_at in C.
  apply errs_bind; [req; exists c; auto|intros u1 _]. apply errs_bind; [req; left; exists c; auto|intros u2 _].
  apply errs_bind; [req; exact F|intros u3 _].
  apply errs_bind; [apply load_val_errs; [exact U|intros F; right; exact F|intros F; exact F]|intros v V]. apply load_val_at in V as [V S].
  apply errs_bind; [apply harvest_errs; auto|intros w1 _].
  { intros d D N. right. eapply of_stake_del; eauto. }
  apply errs_bind; [uns U|intros v1 _]. uns U.
Qed.
Lemma sync_auth_tells e cx a w : errs (reason e cx w (CValidatorSyncAuthority a)) (validator_sync_authority e cx a w).
Proof.
  set (P := reason _ _ _ _). assert (forall x, unspecific x -> P x) as U by un. unfold validator_sync_authority. cbv zeta.
  apply errs_bind; [apply load_config_errs; auto; intros F; left; exact F|intros c C].
  apply errs_bind; [req; exact F|intros u1 _].
  apply errs_bind; [destruct (unpack_val _); [apply errs_ok|apply errs_panic|apply errs_panic]|intros v _].
  apply errs_bind; [req; right; exact F|intros u2 _].
  apply errs_bind; [uns U|intros wd _]. apply errs_bind; [req; exact F|intros; apply errs_ok].
Qed.
Lemma move_tells e cx a n w : errs (reason e cx w (CSolStakerMoveTokens a n)) (sol_staker_move_tokens e cx a n w).
Proof.
  set (P := reason _ _ _ _). assert (forall x, unspecific x -> P x) as U by un. unfold sol_staker_move_tokens. cbv zeta.
  apply errs_bind; [apply load_config_errs; auto; intros F; left; exact F|intros c C].
  apply errs_bind; [req; exact F|intros u1 _].
  apply errs_bind; [apply load_sol_errs; [exact U|intros F; right; left; exact F|intros F; left; exact F]|intros s S]. apply load_sol_at in S as [S S1].
  apply errs_bind; [req; left; exists (s_del s); split; [auto|congruence]|intros u2 _].
  apply errs_bind; [apply harvest_errs; auto|intros w1 W1].
  { intros d D N. left. eapply of_stake_del; eauto. }
  pose proof (harvest_like _ _ _ _ _ _ _ _ _ W1) as L.
  apply errs_bind; [req; right; right; unfold foreign; now rewrite (al_own _ _ L) in F|intros u3 _].
  apply errs_bind; [req; exact F|intros u4 _].
  apply errs_bind; [apply load_sol_errs; [exact U| |]|intros t T].
  { intros F. right. right. unfold foreign in *. now rewrite (al_own _ _ L) in F. }
  { intros F. right. eapply like_none; eauto. }
  apply load_sol_at in T as [T T1].
  apply errs_bind; [apply harvest_errs; auto|intros w2 W2].
  { intros d D N. right. destruct (stake_of_some _ _ _ _ _ T1) as (_ & D0 & _).
    destruct (like_stake _ _ _ _ _ _ L T1) as (d0 & S0 & LK). exists d0. split; [exact S0|]. destruct LK as (_ & _ & A & _). congruence. }
  apply errs_bind; [uns U|intros s2 _]. apply errs_bind; [uns U|intros t2 _]. apply errs_bind; [apply errs_assert|intros u5 _].
  apply errs_bind; [uns U|intros x2 _]. apply errs_bind; [uns U|intros y2 _]. apply errs_bind; [uns U|intros w3 _]. uns U.
Qed.

Lemma load_any_errs e w k ck : dullness (load_any e w k ck).
Proof. unfold load_any. cbv zeta. dull; auto using unpack_val_errs, unpack_sol_errs. Qed.
Lemma load_any_at e w k ck p l lm : own (get w k) = e_prog e -> load_any e w k ck = Ok (p, l, lm) ->
  (exists d, del_of (dat (get w k)) = Ok d) /\
  (k <> p -> no_stake e w ck k) /\ (k = p -> exists d, stake_of e w ck k = Some d).
Proof.
  intros OW H. unfold load_any in H. cbv zeta in H. unfold no_stake, stake_of, stake_in. rewrite OW, N.eqb_refl.
  destruct (dat (get w k)) eqn:D; simpl in H; try discriminate;
    try (destruct (_ =? _); [discriminate|]; destruct (_ =? _); discriminate).
  - injection H as <- <- <-. split; [simpl; eauto|]. split; [intros N; apply N.eqb_neq in N; now rewrite N|intros ->; rewrite N.eqb_refl; eauto].
  - injection H as <- <- <-. split; [simpl; eauto|]. split; [intros N; apply N.eqb_neq in N; now rewrite N|intros ->; rewrite N.eqb_refl; eauto].
Qed.
Lemma unstake_tells e cx a n w : env_ok e -> inv e w -> errs (reason e cx w (CUnstakeTokens a n)) (unstake_tokens e cx a n w).
Proof.
  intros OK IV.
  set (P := reason _ _ _ _). assert (forall x, unspecific x -> P x) as U by un. unfold unstake_tokens. cbv zeta.
  apply errs_bind; [apply load_config_errs; auto; intros F; left; exact F|intros c C]. apply load_config_at in C.
  apply errs_bind; [req; exists c; auto|intros u1 _].
  apply errs_bind; [req; symmetry; exact F|intros u2 _].
  apply errs_bind; [uns U|intros t T]. apply token_of in T.
  apply errs_bind; [req; exact F|intros u3 _].
  apply errs_bind; [req; right; exact F|intros u4 OW]. apply require_ok in OW. b2p OW.
  apply errs_bind; [eapply errs_mono; [exact U|apply load_any_errs]|intros [[p l] lm] LA].
  destruct (load_any_at _ _ _ _ _ _ _ OW LA) as ((d0 & D0) & NS & YS).
  apply errs_bind; [req; exact (NS F)|intros u5 K]. apply require_ok in K. b2p K. destruct (YS K) as (d & S).
  destruct (stake_of_some _ _ _ _ _ S) as (_ & D & _).
  apply errs_bind; [req; exact F|intros u6 _].
  apply errs_bind; [uns U|intros d1 D1].
  apply errs_bind; [req; exists d; split; [auto|congruence]|intros u7 _].
  apply errs_bind; [req; exists t; auto|intros u8 _].
  apply errs_bind; [uns U|intros m _].
  apply errs_bind; [apply harvest_errs; auto|intros w1 W1].
  { intros d' D' N. eapply of_stake_del; eauto. }
  pose proof (harvest_like _ _ _ _ _ _ _ _ _ W1) as L.
  apply errs_bind; [uns U|intros d2 D2]. apply errs_bind; [uns U|intros c1 C1]. apply config_of in C1.
  destruct (like_config e w w1 (un_config a) c1 L) as (c0 & C0 & _ & _ & BE); [split; [rewrite (al_own _ _ L); apply C|auto]|].
  assert (c0 = c) as -> by (destruct C as [_ C], C0 as [_ C0]; congruence).
  assert (likedel d d2) as (L1 & L2 & L3 & L4).
  { pose proof (al_dat _ _ L (un_stake a)) as X. destruct (dat (get w (un_stake a))), (dat (get w1 (un_stake a)));
      simpl in X, D, D2; try discriminate; try contradiction; injection D as <-; injection D2 as <-; [exact X|apply X]. }
  apply errs_bind; [req; exists d; split; [auto|congruence]|intros u9 _].
  apply errs_bind; [req; exists d; split; [auto|congruence]|intros u10 GE]. apply require_ok in GE. b2p GE.
  apply errs_bind; [uns U|intros x X].
  apply errs_bind; [req; exists c; split; [auto|]; exists d; split; [auto|]|intros u11 _].
  { unfold max_deactivation_amount, mul128, to64 in X. destruct (_ <? U128); [|discriminate]. simpl in X.
    destruct (_ <? U64); [|discriminate]. injection X as <-. rewrite <- L1, <- BE. split; assumption. }
  apply errs_bind; [uns U|intros s1 _]. apply errs_bind; [uns U|intros w2 _].
  apply errs_bind; [apply cpi_errs; auto; intros F; destruct F as [F|F]; [left|right]; simpl in *; intuition|intros u12 _].
  apply errs_bind; [uns U|intros w3 _].
  apply errs_bind; [apply cpi_errs; auto; intros F; destruct F as [F|F]; [left|right]; simpl in *; intuition|intros u13 _].
  uns U.
Qed.
Lemma slash_tells e cx a (b : bool) n w c l lm d : env_ok e -> inv e w -> config_at e w (sl_config a) c ->
  stake_of e w (sl_config a) (sl_stake a) = Some d ->
  errs (reason e cx w (if b then CSlashSolStakerStake a n else CSlashValidatorStake a n)) (slash_stake e cx a c l lm n w).
Proof.
  intros OK IV C S. replace (reason e cx w (if b then CSlashSolStakerStake a n else CSlashValidatorStake a n))
    with (reason e cx w (CSlashSolStakerStake a n)) by (destruct b; reflexivity).
  set (P := reason _ _ _ _). assert (forall x, unspecific x -> P x) as U by un. unfold slash_stake. cbv zeta.
  assert (e_create_vault e (sl_config a) (cfg_bump c) = Some (e_vault e (sl_config a))) as CV.
  { destruct (sane_cfg _ _ (i_sane _ _ IV) _ _ C) as (_ & _ & -> & _). apply (ok_bump _ OK). }
  rewrite CV. apply errs_bind; [apply errs_ok|intros vs [= <-]].
  apply errs_bind; [req; left; exact F|intros u1 VA]. apply require_ok in VA. b2p VA. rewrite VA.
  apply errs_bind; [apply harvest_errs; auto|intros w1 W1].
  { intros d' D' N. right. left. eapply of_stake_del; eauto. }
  pose proof (harvest_like _ _ _ _ _ _ _ _ _ W1) as L.
  apply errs_bind; [uns U|intros c1 C1]. apply config_of in C1.
  destruct (like_config e w w1 (sl_config a) c1 L) as (c0 & C0 & VE & SE & _); [split; [rewrite (al_own _ _ L); apply C|auto]|].
  assert (c0 = c) as -> by (destruct C as [_ C], C0 as [_ C0]; congruence).
  apply errs_bind; [req; exists c; split; [auto|congruence]|intros u2 _].
  apply errs_bind; [req; right; right; exists c; split; [auto|congruence]|intros u3 _].
  apply errs_bind; [req; exact F|intros u4 _].
  apply errs_bind; [req; exists c; split; [auto|congruence]|intros u5 _].
  apply errs_bind; [uns U|intros t T]. apply token_of, (like_token _ _ _ _ L) in T.
  apply errs_bind; [req; exists t; auto|intros u6 _].
  apply errs_bind; [|intros w2 _; uns U].
  unfold process_slash_for_delegation. cbv zeta.
  apply errs_bind; [req; exact F|intros u7 _]. apply errs_bind; [req; unfold P; simpl; lia|intros u8 _].
  apply errs_bind; [uns U|intros d2 _]. apply errs_bind; [uns U|intros s2 _].
  apply errs_if; intros _; [|apply errs_ok].
  apply errs_bind; [uns U|intros m _].
  apply errs_bind; [apply cpi_errs; auto|intros u9 _]. uns U.
Qed.
Lemma holder_tells e cx a w : env_ok e -> inv e w -> errs (reason e cx w (CHarvestHolderRewards a)) (harvest_holder_rewards e cx a w).
Proof.
  intros OK IV.
  set (P := reason _ _ _ _). assert (forall x, unspecific x -> P x) as U by un. unfold harvest_holder_rewards. cbv zeta.
  apply errs_bind; [apply load_config_errs; auto; intros F; left; exact F|intros c C]. apply load_config_at in C.
  apply errs_bind; [req; exists c; auto|intros u1 _].
  apply errs_bind; [uns U|intros t T]. apply token_of in T.
  apply errs_bind; [req; exists t; auto|intros u2 _].
  assert (e_create_vault e (hh_config a) (cfg_bump c) = Some (e_vault e (hh_config a))) as CV.
  { destruct (sane_cfg _ _ (i_sane _ _ IV) _ _ C) as (_ & _ & -> & _). apply (ok_bump _ OK). }
  rewrite CV. apply errs_bind; [apply errs_ok|intros vs [= <-]].
  apply errs_bind; [req; exact F|intros u3 VA]. apply require_ok in VA. b2p VA.
  apply errs_bind; [req; right; exact F|intros u4 _].
  apply errs_bind; [req; unfold P; simpl; congruence|intros u5 _].
  apply errs_bind; [uns U|intros w1 _]. apply errs_bind; [uns U|intros w2 _]. apply errs_bind; [uns U|intros w3 _].
  apply errs_bind; [uns U|intros c3 _]. apply errs_ok.
Qed.
Lemma resync_errs (P : error -> Prop) e w ck vhr vs vk au f : (forall x, unspecific x -> P x) -> vhr = e_holder e vs ->
  (forall d, del_of (dat (get w vk)) = Ok d -> au <> authority d -> P (Stake InvalidAuthority)) -> (forall t, dullness (f t)) ->
  errs P (resync_validator e w ck vhr vs vk au f).
Proof.
  intros U V A F. unfold resync_validator. cbv zeta. apply errs_bind; [apply harvest_errs; [exact U|exact A|contradiction]|intros w1 _].
  apply errs_bind; [uns U|intros v _]. apply errs_bind; [eapply errs_mono; [exact U|apply F]|intros t _]. uns U.
Qed.
Lemma resync_like e w ck vhr vs vk au f w' : resync_validator e w ck vhr vs vk au f = Ok w' -> alike_w w w'.
Proof.
  unfold resync_validator. cbv zeta. intros H. stepn H w1 W1. stepn H v V. stepn H t T.
  eapply alike_trans; [eapply harvest_like; eauto|]. eapply alike_trans; [|eapply sync_like; eauto].
  assert (dat (get w1 vk) = DVal v) as D by (unfold unpack_val in V; destruct (dat (get w1 vk)); try (destruct (_ =? _); discriminate); now injection V as ->).
  split; intros k; ws; [reflexivity|]. destruct (N.eqb_spec vk k) as [<-|]; [rewrite D; repeat split|apply like_refl].
Qed.
Lemma like_sol e w w' k s' : alike_w w w' -> own (get w k) = e_prog e -> dat (get w' k) = DSol s' ->
  exists s, sol_at e w k s /\ likedel (s_del s) (s_del s') /\ s_native s' = s_native s /\ s_lamports s' = s_lamports s.
Proof.
  intros [_ D] OW E. specialize (D k). rewrite E in D. destruct (dat (get w k)) eqn:E0; simpl in D; try contradiction; try discriminate.
  exists s. split; [split; auto|exact D].
Qed.
Lemma sol_of_data w k t : unpack_sol (dat (get w k)) = Ok t -> dat (get w k) = DSol t.
Proof. unfold unpack_sol. destruct (dat (get w k)); try (destruct (_ =? _); discriminate). now intros [= ->]. Qed.
Lemma val_of_data w k t : unpack_val (dat (get w k)) = Ok t -> dat (get w k) = DVal t.
Proof. unfold unpack_val. destruct (dat (get w k)); try (destruct (_ =? _); discriminate). now intros [= ->]. Qed.
(* a validator stake whose address is the derived one, two settlements later *)
Lemma val_authority e w w' ck k v d au : alike_w w w' -> own (get w' k) = e_prog e -> dat (get w' k) = DVal v ->
  (exists x, k = e_val e x ck /\ vote (v_del v) = x) -> del_of (dat (get w' k)) = Ok d -> au <> authority d ->
  of_stake e w ck k (fun d => au <> authority d).
Proof.
  intros L OW D (x & K & V) DD N. assert (stake_of e w' ck k = Some (v_del v)) as S.
  { unfold stake_of, stake_in. rewrite OW, N.eqb_refl, D, V, <- K, N.eqb_refl. reflexivity. }
  destruct (like_stake _ _ _ _ _ _ L S) as (d0 & S0 & (_ & _ & A & _)). exists d0. split; [exact S0|].
  rewrite D in DD. injection DD as <-. congruence.
Qed.
Lemma harvest_sol_tells e cx a w : env_ok e -> inv e w ->
  errs (reason e cx w (CHarvestSolStakerRewards a)) (harvest_sol_staker_rewards e cx a w).
Proof.
  intros OK IV.
  set (P := reason _ _ _ _). assert (forall x, unspecific x -> P x) as U by un. unfold harvest_sol_staker_rewards. cbv zeta.
  apply errs_bind; [apply load_config_errs; [exact U|intros F; left; exact F]|intros c C].
  apply errs_bind; [apply load_sol_errs; [exact U|intros F; right; left; exact F|intros F; left; exact F]|intros s S].
  apply load_sol_at in S as [S S1].
  apply errs_bind; [req; left; exists (s_del s); auto|intros u1 _].
  apply errs_bind; [req; exists s; auto|intros u2 _].
  apply errs_bind; [req; right; left; exact F|intros u3 K]. apply require_ok in K. b2p K.
  apply errs_bind; [req; exact F|intros u4 _].
  apply errs_bind; [destruct (c_view cx) eqn:E; [apply errs_ok|apply errs_err; exact E]|intros vw V].
  assert (c_view cx = Some vw) as VW by (destruct (c_view cx); [now injection V as ->|discriminate]). clear V.
  apply errs_bind; [|intros kp _].
  { apply errs_if; [|intros _; apply errs_ok]. intros R. destruct (hs_keeper a) eqn:HK; [apply errs_ok|apply errs_err].
    split; [exact HK|]. exists s, vw. split; [exact S|]. split; [exact VW|].
    apply orb_true_iff in R as [R|R]; apply negb_true_iff, N.eqb_neq in R; auto. }
  apply errs_bind; [apply harvest_errs; [exact U| |contradiction]|intros w1 W1].
  { intros d D N. left. eapply of_stake_del; eauto. }
  pose proof (harvest_like _ _ _ _ _ _ _ _ _ W1) as L.
  apply errs_if; intros _; [apply errs_ok|].
  apply errs_bind; [uns U|intros s1 D1]. apply sol_of_data in D1.
  destruct (like_sol e _ _ _ _ L (proj1 S) D1) as (s0 & S0 & (_ & _ & _ & VE) & NE & LE).
  assert (s0 = s) as -> by (destruct S as [_ S], S0 as [_ S0]; congruence).
  assert (sane e w) as SA by apply IV.
  (* a validator account that is at a derived address records that vote account *)
  assert (forall w' k x v, alike_w w w' -> own (get w' k) = e_prog e -> k = e_val e x (hs_config a) -> dat (get w' k) = DVal v ->
    exists x, k = e_val e x (hs_config a) /\ vote (v_del v) = x) as VV.
  { intros w' k x v L' OW KX DV. exists (vote (v_del v)). split; [|reflexivity].
    pose proof (al_dat _ _ L' k) as X. rewrite DV in X. destruct (dat (get w k)) eqn:E0; simpl in X; try contradiction; try discriminate.
    rewrite (al_own _ _ L') in OW. destruct (sane_val _ _ SA k v0 (conj OW E0)) as (ck' & c' & K' & _).
    assert (vote (v_del v) = vote (v_del v0)) as VE0 by apply X. rewrite VE0.
    rewrite KX in K'. destruct (ok_val_inj e OK _ _ _ _ K') as [<- <-]. exact KX. }
  apply errs_bind.
  { (* leaving *)
    unfold leave_previous. apply errs_if; intros _; [|apply errs_bind; [apply errs_assert|intros; apply errs_ok]].
    apply errs_bind; [req; right; right; unfold foreign; now rewrite (al_own _ _ L) in F|intros u5 OW]. apply require_ok in OW. b2p OW.
    apply errs_bind; [req; right; right; left; exists (s_del s); split; [auto|congruence]|intros u6 KP]. apply require_ok in KP. b2p KP.
    apply errs_bind; [uns U|intros v DV]. apply val_of_data in DV.
    apply resync_errs; [exact U|exact K| |intros t; apply csub_errs].
    intros d D N. right. left. eapply val_authority; [exact L|exact OW|exact DV| |exact D|exact N]. eapply VV; eauto. }
  intros w2 W2. assert (alike_w w w2) as L2.
  { eapply alike_trans; [exact L|]. unfold leave_previous in W2. destruct (negb _).
    - stepn W2 x1 X1. stepn W2 x2 X2. stepn W2 x3 X3. eapply resync_like; eauto.
    - stepn W2 x1 X1. injection W2 as <-. split; intros k; [reflexivity|apply like_refl]. }
  apply errs_bind.
  { (* joining *)
    unfold join_current. apply errs_if; intros _; [|apply errs_ok].
    apply errs_bind; [req; right; right; right; exists vw; auto|intros u7 KC]. apply require_ok in KC. b2p KC.
    apply errs_if; intros OW; [|apply errs_ok]. b2p OW.
    apply errs_bind; [uns U|intros v DV]. apply val_of_data in DV.
    apply errs_bind; [|intros; apply errs_ok].
    apply resync_errs; [exact U|exact K| |intros t; apply add64_errs].
    intros d D N. right. right. eapply val_authority; [exact L2|exact OW|exact DV| |exact D|exact N]. eapply VV; eauto. }
  intros [[w3 cv] cs] _. apply errs_bind; [uns U|intros s3 _]. uns U.
Qed.

(** Whenever an instruction fails with an error of the program, what the error
    says is the case. *)
Theorem C73_errors_true e cx c w x : env_ok e -> reachable e w -> run e cx c w = Err x -> reason e cx w c x.
Proof.
  intros OK R. pose proof (inv_reachable _ _ OK R) as IV. revert x. fold (errs (reason e cx w c) (run e cx c w)).
  assert (forall y, unspecific y -> reason e cx w c y) as U by (destruct c; un).
  unfold run. apply errs_bind; [|intros w1 _; apply errs_bind; [eapply errs_mono; [exact U|apply runtime_errs]|intros; apply errs_ok]].
  destruct c; simpl handler.
  - apply init_config_tells.
  - apply init_val_tells.
  - unfold validator_stake_tokens.
    apply errs_bind; [apply load_config_errs; [exact U|intros F; left; exact F]|intros c C]. apply load_config_at in C.
    apply errs_bind; [apply load_val_errs; [exact U|intros F; right; exact F|intros F; exact F]|intros v V]. apply load_val_at in V as [V S].
    apply (stake_tells e cx a false _ w c _ C S).
  - apply holder_tells; auto.
  - apply harvest_val_tells.
  - unfold slash_validator_stake.
    apply errs_bind; [apply load_config_errs; [exact U|intros F; left; exact F]|intros c C]. apply load_config_at in C.
    apply errs_bind; [apply load_val_errs; [exact U|intros F; right; exact F|intros F; exact F]|intros v V]. apply load_val_at in V as [V S].
    apply (slash_tells e cx a false _ w c _ _ _ OK IV C S).
  - apply set_authority_tells.
  - apply update_config_tells.
  - apply init_sol_tells.
  - unfold sol_staker_stake_tokens.
    apply errs_bind; [apply load_config_errs; [exact U|intros F; left; exact F]|intros c C]. apply load_config_at in C.
    apply errs_bind; [apply load_sol_errs; [exact U|intros F; right; exact F|intros F; exact F]|intros v V]. apply load_sol_at in V as [V S].
    apply (stake_tells e cx a true _ w c _ C S).
  - apply harvest_sol_tells; auto.
  - apply unstake_tells; auto.
  - unfold slash_sol_staker_stake.
    apply errs_bind; [apply load_config_errs; [exact U|intros F; left; exact F]|intros c C]. apply load_config_at in C.
    apply errs_bind; [apply load_sol_errs; [exact U|intros F; right; exact F|intros F; exact F]|intros v V]. apply load_sol_at in V as [V S].
    apply (slash_tells e cx a true _ w c _ _ _ OK IV C S).
  - apply move_tells.
  - apply override_tells.
  - apply sync_auth_tells.
Qed.
Print Assumptions C73_errors_true.
(* After Bob has unstaked at time 5000, with a cooldown of 1000 and a cap of half a stake: what various
   attempts on the accounts of the demonstration are answered with. *)
Definition attempts : list (act * error) :=
  [ (unstake ksol2 bob btok 10 5999 (5 * 10 ^ 18), Stake ActiveUnstakeCooldown);
    (unstake ksol2 bob btok 201 6000 (5 * 10 ^ 18), Stake MaximumDeactivationAmountExceeded);
    (unstake ksol2 bob btok 401 6000 (5 * 10 ^ 18), Stake InsufficientStakeAmount);
    (unstake ksol2 bob kvtok 10 6000 (5 * 10 ^ 18), Stake InvalidDestinationAccount);
    (unstake ksol2 carol btok 10 6000 (5 * 10 ^ 18), Stake InvalidAuthority);
    (stake_sol nat2 bob btok bob 0 (5 * 10 ^ 18), Stake InvalidAmount);
    (Call (cx [bob] 0 None 0) (CValidatorStakeTokens (stake_accts_of ksol2 bob btok bob) 5), InvalidAccountData);
    (harvest_sol nat2 bob vote2 dave vote1 alice None (View vote1 bob 5000), NotEnoughAccountKeys);
    (harvest_sol nat2 bob vote2 alice vote1 alice (Some carol) (View vote1 bob 5000), Stake InvalidAuthority);
    (harvest_sol nat2 bob vote1 alice vote1 alice (Some carol) (View vote1 bob 5000), InvalidSeeds);
    (init_sol nat2 vote2 bob 5000, AccountAlreadyInitialized);
    (init_config, AccountAlreadyInitialized);
    (slash_sol nat2 alice 50, Stake InvalidAuthority);
    (move nat2 nat2 bob 5, AccountBorrowFailed);
    (Call (cx [gov] 0 None 0) (CUpdateConfig (UpdateConfigA kcfg gov) (MaxDeactivationBasisPoints 10001)), InvalidArgument) ].
Definition answered (p : act * error) (w : world) : bool :=
  match fst p with
  | Call x c => match run denv x c w with Err y => if decide (y = snd p) then true else false | _ => false end
  | _ => false
  end.
Example C73_case : let w := at_end (firstn 15 story) in
  reachable denv w /\ forallb (fun p => answered p w) attempts = true.
Proof. cbv zeta. split; [apply at_end_reachable; vm_compute; reflexivity|vm_compute; reflexivity]. Qed.
(* What the first two answers then say. *)
Example C73_told_case : let w := at_end (firstn 15 story) in
  of_stake denv w kcfg ksol2 (fun d => 5999 < cooldown d) /\
  of_config denv w kcfg (fun c => of_stake denv w kcfg ksol2 (fun d => staked d * cfg_bps c / 10000 < 201 <= staked d)).
Proof.
  cbv zeta. set (w := at_end (firstn 15 story)). assert (reachable denv w) as R by (apply at_end_reachable; vm_compute; reflexivity).
  split.
  - refine (C73_errors_true denv (cx [bob] 5999 None (5 * 10 ^ 18)) (CUnstakeTokens
      (UnstakeA kcfg kpool kptok ksol2 bob kvtok kpda kvhr kmint btok (e_token denv)) 10) w (Stake ActiveUnstakeCooldown) denv_ok R _).
    vm_compute. reflexivity.
  - refine (C73_errors_true denv (cx [bob] 6000 None (5 * 10 ^ 18)) (CUnstakeTokens
      (UnstakeA kcfg kpool kptok ksol2 bob kvtok kpda kvhr kmint btok (e_token denv)) 201) w (Stake MaximumDeactivationAmountExceeded) denv_ok R _).
    vm_compute. reflexivity.
Qed.
