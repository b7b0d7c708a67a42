(** Every handler as a chain of the internal steps of [Effects.v]. *)
From Verif Require Import Base Types Layout Instr Math External Processor Runtime History Spec
  WorldLemmas Effects.

(** [k] is the derived address, under config [ck], of the stake account holding [d]. *)
Definition belongs (e : env) (ck k : pubkey) (d : adata) : Prop :=
  match d with
  | DVal v => k = e_val e (vote (v_del v)) ck
  | DSol s => k = e_sol e (s_native s) ck
  | _ => False
  end.

(** Accounts handed to a CPI are not among the borrowed ones. *)
Definition unheld (held ks : list pubkey) : Prop := forall k, In k ks -> ~ In k held.
Lemma cpi_check_ok w0 w held ks u : cpi_check w0 w held ks = Ok u ->
  unheld held ks /\ lam_sum w ks = lam_sum w0 ks.
Proof.
  intros H. unfold cpi_check in H. stepg H G. apply require_ok in H. b2p H. split; auto.
  intros k I J. apply eq_true_false_abs with (2 := G).
  apply existsb_exists. exists k. split; auto. apply existsb_exists. exists k. split; auto.
  apply N.eqb_refl.
Qed.

Lemma with_pda_ok cx p k : with_pda cx p k = true -> signed cx k = true \/ k = p.
Proof. unfold with_pda. rewrite orb_true_iff, N.eqb_eq. auto. Qed.

Lemma upd_del_limits_match d x :
  (match upd_del d x with DVal v => (v_total v, v_min v) | DSol s => (s_lamports s, 0) | _ => (0, 0) end)
  = (match d with DVal v => (v_total v, v_min v) | DSol s => (s_lamports s, 0) | _ => (0, 0) end).
Proof. destruct d; auto. Qed.

Lemma harvested_sk e w ck vhr auth va sk keeper w' : harvested e w ck vhr auth va sk keeper w' ->
  ck <> sk.
Proof. intros [c d h ? ? ? Hc Hd]. intros ->. rewrite Hc in Hd. discriminate. Qed.
Lemma harvested_limits e w ck vhr auth va sk keeper w' : harvested e w ck vhr auth va sk keeper w' ->
  limits (dat (get w' sk)) = limits (dat (get w sk)).
Proof.
  intros H. pose proof (harvested_sk _ _ _ _ _ _ _ _ _ H) as NS. destruct H.
  rewrite Hdat. rewrite (proj2 (N.eqb_neq _ _) NS), N.eqb_refl. apply limits_upd.
Qed.

(** ** Staking *)
Inductive staked_ok (e : env) (cx : ctx) (a : stake_accts) (amount : N) (w w' : world) : Prop :=
| StakedOk c d w1 w2 w3 w4
    (H1 : harvested e w (st_config a) (st_vhr a) (st_authority a) (e_vault e (st_config a))
            (st_stake a) None w1)
    (Hc : dat (get w1 (st_config a)) = DConfig c)
    (Hvp : st_vault_pda a = e_vault e (st_config a))
    (Hva : st_vault a = cfg_vault c)
    (Hpos : 0 < amount)
    (Hd : del_of (dat (get w1 (st_stake a))) = Ok d)
    (Hb : staked d + amount < U64)
    (H2 : w2 = put_del w1 (st_stake a) (set_staked d (staked d + amount)))
    (H3 : resynced w2 (st_config a) (st_stake a) (limits (dat (get w (st_stake a)))) w3)
    (Hu : unheld [st_config a; st_stake a]
            ([st_source a; st_mint a; st_vault a; st_source_auth a] ++
             [st_pool a; st_ptok a; st_vhr a; st_vault a; st_mint a; st_vault_pda a; st_tokprog a]))
    (Hsum1 : lam_sum w3 [st_source a; st_mint a; st_vault a; st_source_auth a] =
             lam_sum w [st_source a; st_mint a; st_vault a; st_source_auth a])
    (H4 : transferred e (signed cx) w3 (st_source a) (st_mint a) (st_vault a) (st_source_auth a) amount w4)
    (H5 : deposited_ok e (with_pda cx (e_vault e (st_config a))) w4 (st_pool a) (st_ptok a) (st_vhr a)
            (st_vault a) (st_mint a) (st_vault_pda a) amount (c_pool_acc cx mod U128) w').

Lemma stake_tokens_ok e cx a co amount w w' : stake_tokens e cx a co amount w = Ok w' ->
  staked_ok e cx a amount w w'.
Proof.
  intros H. unfold stake_tokens in H. cbv zeta in H. stepn H w1 E1. apply harvest_ok in E1.
  pose proof (harvested_sk _ _ _ _ _ _ _ _ _ E1) as NS.
  pose proof (harvested_limits _ _ _ _ _ _ _ _ _ E1) as LIM.
  stepn H c Ec. apply unpack_config_ok in Ec. stepg H G1. stepg H G2. stepn H t Et. stepg H G3.
  stepg H G4. stepn H m Em. stepg H G5. stepn H d Ed. stepn H s Es. apply add64_ok in Es as [-> Hb].
  wsi H. rewrite N.eqb_refl in H. rewrite upd_del_limits_match in H.
  destruct (match dat (get w1 (st_stake a)) with
            | DVal v => (v_total v, v_min v) | DSol s => (s_lamports s, 0) | _ => (0,0) end)
    as [l lmin] eqn:EL.
  stepn H w3 E3. apply sync_effective_ok in E3.
  assert (N.max l lmin = limits (dat (get w (st_stake a)))) as EM.
  { rewrite <- LIM. apply del_of_ok in Ed as [(v & Ev & _)|(v & Ev & _)]; rewrite Ev in *; simpl;
      injection EL as <- <-; reflexivity. }
  rewrite EM in E3.
  stepn H u1 C1. apply cpi_check_ok in C1 as [_ C1]. stepn H w4 E4. apply token_transfer_ok in E4.
  stepn H u2 C2. apply cpi_check_ok in C2 as [C2 _]. apply rewards_deposit_ok in H.
  eapply StakedOk; eauto.
Qed.

(** ** Unstaking *)
Inductive unstaked_ok (e : env) (cx : ctx) (a : unstake_accts) (amount : N) (w w' : world) : Prop :=
| UnstakedOk c0 d0 c d m w1 w2 w3 w4
    (Hco : own (get w (un_config a)) = e_prog e)
    (Hc0 : dat (get w (un_config a)) = DConfig c0)
    (Hso : own (get w (un_stake a)) = e_prog e)
    (Hbel : belongs e (un_config a) (un_stake a) (dat (get w (un_stake a))))
    (Hd0 : del_of (dat (get w (un_stake a))) = Ok d0)
    (Hsig : signed cx (un_authority a) = true)
    (Hau : un_authority a = authority d0)
    (Hvp : un_vault_pda a = e_vault e (un_config a))
    (Hva : un_vault a = cfg_vault c0)
    (Hvd : un_vault a <> un_dest a)
    (H1 : harvested e w (un_config a) (un_vhr a) (un_authority a) (e_vault e (un_config a))
            (un_stake a) None w1)
    (Hc : dat (get w1 (un_config a)) = DConfig c)
    (Hd : del_of (dat (get w1 (un_stake a))) = Ok d)
    (Hcd : cooldown d <= c_now cx)
    (Ham : amount <= staked d)
    (Hmax : max_deactivation_amount (staked d) (cfg_bps c) = Ok m)
    (Hle : amount <= m)
    (H2 : w2 = put_del w1 (un_stake a)
            (set_cooldown (set_staked d (staked d - amount)) (sat_add64 (c_now cx) (cfg_cooldown c))))
    (H3 : resynced w2 (un_config a) (un_stake a) (limits (dat (get w (un_stake a)))) w3)
    (Hu : unheld [un_config a; un_stake a]
            ([un_pool a; un_ptok a; un_vhr a; un_vault a; un_mint a; un_vault_pda a; un_tokprog a] ++
             [un_vault a; un_mint a; un_dest a; un_vault_pda a]))
    (H4 : withdrawn_ok e (with_pda cx (e_vault e (un_config a))) w3 (un_pool a) (un_ptok a) (un_vhr a)
            (un_vault a) (un_mint a) (un_vault_pda a) amount (c_pool_acc cx mod U128) w4)
    (H5 : transferred e (with_pda cx (e_vault e (un_config a))) w4 (un_vault a) (un_mint a) (un_dest a)
            (un_vault_pda a) amount w').

Lemma load_any_ok e w k ck p l lmin : load_any e w k ck = Ok (p, l, lmin) -> k = p ->
  belongs e ck k (dat (get w k)) /\ N.max l lmin = limits (dat (get w k)) /\
  is_Some (match del_of (dat (get w k)) with Ok y => Some y | _ => None end).
Proof.
  intros H ->. unfold load_any in H. destruct (_ =? VAL_LEN).
  - stepn H v Ev. apply unpack_val_ok in Ev. rewrite Ev. injection H as <- <- <-. simpl. eauto.
  - destruct (_ =? SOL_LEN); [|discriminate].
    stepn H v Ev. apply unpack_sol_ok in Ev. rewrite Ev. injection H as <- <- <-. simpl. eauto.
Qed.

Lemma unstake_tokens_ok e cx a amount w w' : unstake_tokens e cx a amount w = Ok w' ->
  unstaked_ok e cx a amount w w'.
Proof.
  intros H. unfold unstake_tokens in H. cbv zeta in H. stepn H c0 E0. apply load_config_ok in E0 as [O0 E0].
  stepg H G1. stepg H G2. stepn H t Et. stepg H G3. stepg H G4. stepn H pll EL.
  destruct pll as [[p l] lmin]. stepg H G5. apply load_any_ok in EL as (EL & LIM & _); auto.
  stepg H G6. stepn H d0 Ed0. stepg H G7. stepg H G8. stepn H m0 Em0. stepn H w1 E1.
  apply harvest_ok in E1. stepn H d Ed. stepn H c Ec. apply unpack_config_ok in Ec.
  stepg H G9. stepg H G10. stepn H m Em. stepg H G11. stepn H s Es. apply csub_ok in Es as [_ ->].
  stepn H w3 E3. apply sync_effective_ok in E3. rewrite LIM in E3.
  stepn H u1 C1. stepn H w4 E4. apply rewards_withdraw_ok in E4. stepn H u2 C2.
  apply cpi_check_ok in C2 as [C2 _]. apply token_transfer_ok in H.
  eapply UnstakedOk; eauto.
Qed.

(** ** Slashing *)
Inductive slashed_ok (e : env) (cx : ctx) (a : slash_accts) (amount : N) (w w' : world) : Prop :=
| SlashedOk c0 c d w1 w2 w3
    (Hc0 : dat (get w (sl_config a)) = DConfig c0)
    (Hva : e_create_vault e (sl_config a) (cfg_bump c0) = Some (sl_vault_auth a))
    (H1 : harvested e w (sl_config a) (sl_vhr a) (sl_authority a) (sl_vault_auth a) (sl_stake a) None w1)
    (Hc : dat (get w1 (sl_config a)) = DConfig c)
    (Hset : cfg_slash c <> 0)
    (Hau : sl_slash a = cfg_slash c)
    (Hsig : signed cx (sl_slash a) = true)
    (Hv : sl_vault a = cfg_vault c)
    (Hpos : 0 < amount)
    (Hd : del_of (dat (get w1 (sl_stake a))) = Ok d)
    (H2 : w2 = put_del w1 (sl_stake a) (set_staked d (staked d - N.min amount (staked d))))
    (H3 : (N.min amount (staked d) = 0 /\ w3 = w2) \/
          (0 < N.min amount (staked d) /\
           unheld [sl_config a; sl_stake a] [sl_vault a; sl_mint a; sl_vault_auth a] /\
           burned e (with_pda cx (sl_vault_auth a)) w2 (sl_vault a) (sl_mint a) (sl_vault_auth a)
             (N.min amount (staked d)) w3))
    (H4 : resynced w3 (sl_config a) (sl_stake a) (limits (dat (get w (sl_stake a)))) w').

Lemma slash_stake_ok e cx a c0 l lmin amount w w' :
  dat (get w (sl_config a)) = DConfig c0 ->
  N.max l lmin = limits (dat (get w (sl_stake a))) ->
  slash_stake e cx a c0 l lmin amount w = Ok w' -> slashed_ok e cx a amount w w'.
Proof.
  intros D0 LIM H. unfold slash_stake in H. stepn H vs Ev.
  destruct (e_create_vault e (sl_config a) (cfg_bump c0)) as [vs'|] eqn:EV; [|discriminate].
  injection Ev as ->. stepg H G1. subst vs.
  stepn H w1 E1. apply harvest_ok in E1. stepn H c Ec. apply unpack_config_ok in Ec.
  stepg H G2. stepg H G3. stepg H G4. stepg H G5. stepn H t Et. stepg H G6.
  stepn H w3 E3. apply sync_effective_ok in H. rewrite LIM in H.
  unfold process_slash_for_delegation in E3. stepg E3 G7. stepg E3 G8. stepn E3 d Ed. cbv zeta in E3.
  stepn E3 s Es. apply csub_ok in Es as [_ ->].
  eapply SlashedOk; eauto.
  destruct (N.ltb_spec 0 (N.min amount (staked d))) as [L|L].
  - right. split; auto. stepn E3 m Em. stepn E3 u C. apply cpi_check_ok in C as [C _].
    apply token_burn_ok in E3. auto.
  - left. injection E3 as <-. split; auto. lia.
Qed.

(** ** Moving *)
Inductive moved_ok (e : env) (cx : ctx) (a : move_accts) (amount : N) (w w' : world) : Prop :=
| MovedOk c0 s0 t0 s t w1 w2 w3 w4 w5
    (Hco : own (get w (mv_config a)) = e_prog e)
    (Hc0 : dat (get w (mv_config a)) = DConfig c0)
    (Hsig : signed cx (mv_authority a) = true)
    (Hso : own (get w (mv_source a)) = e_prog e)
    (Hs0 : dat (get w (mv_source a)) = DSol s0)
    (Hsk : mv_source a = e_sol e (s_native s0) (mv_config a))
    (Hau : authority (s_del s0) = mv_authority a)
    (Hne : mv_dest a <> mv_source a)
    (Hto : own (get w (mv_dest a)) = e_prog e)
    (Ht0 : dat (get w1 (mv_dest a)) = DSol t0)
    (Htk : mv_dest a = e_sol e (s_native t0) (mv_config a))
    (H1 : harvested e w (mv_config a) (mv_vhr a) (mv_authority a) (e_vault e (mv_config a))
            (mv_source a) None w1)
    (H2 : harvested e w1 (mv_config a) (mv_vhr a) (mv_authority a) (e_vault e (mv_config a))
            (mv_dest a) None w2)
    (Hs : dat (get w2 (mv_source a)) = DSol s)
    (Ht : dat (get w2 (mv_dest a)) = DSol t)
    (Hauth : authority (s_del s) = authority (s_del t))
    (Ham : amount <= staked (s_del s))
    (Hb : staked (s_del t) + amount < U64)
    (H3 : w3 = put_del w2 (mv_source a) (set_staked (s_del s) (staked (s_del s) - amount)))
    (H4 : w4 = put_del w3 (mv_dest a)
             (set_cooldown (set_staked (s_del t) (staked (s_del t) + amount))
                           (N.max (cooldown (s_del s)) (cooldown (s_del t)))))
    (H5 : resynced w4 (mv_config a) (mv_source a) (N.max (s_lamports s) 0) w5)
    (H6 : resynced w5 (mv_config a) (mv_dest a) (N.max (s_lamports t) 0) w').

Lemma sol_staker_move_tokens_ok e cx a amount w w' : sol_staker_move_tokens e cx a amount w = Ok w' ->
  moved_ok e cx a amount w w'.
Proof.
  intros H. unfold sol_staker_move_tokens in H. cbv zeta in H. stepn H c0 E0. apply load_config_ok in E0 as [O0 E0].
  stepg H G1. stepn H s0 Es0. apply load_sol_ok in Es0 as (S1 & S2 & S3). stepg H G2.
  stepn H w1 E1. apply harvest_ok in E1. stepg H G3. stepg H G4. stepn H t0 Et0.
  apply load_sol_ok in Et0 as (T1 & T2 & T3). stepn H w2 E2. apply harvest_ok in E2.
  stepn H s Es. apply unpack_sol_ok in Es. stepn H t Et. apply unpack_sol_ok in Et. stepg H G5.
  stepn H x Ex. apply csub_ok in Ex as [Lx ->]. stepn H y Ey. apply add64_ok in Ey as [-> Ly].
  stepn H w5 E5. apply sync_effective_ok in E5. apply sync_effective_ok in H.
  eapply (MovedOk e cx a amount w w' c0 s0 t0 s t w1 w2); eauto. destruct E1. rewrite Ho in G3. auto.
Qed.

(** ** Harvesting a SOL staker *)
Inductive revalidated (e : env) (w : world) (ck vhr vs vk vauth : pubkey) (f : N -> result N) (w' : world)
    : Prop :=
| Revalidated v t w1 w2
    (H1 : harvested e w ck vhr vauth vs vk None w1)
    (Hv : dat (get w1 vk) = DVal v)
    (Hf : f (v_total v) = Ok t)
    (H2 : w2 = setd w1 vk (DVal (set_v_total v t)))
    (H3 : resynced w2 ck vk (N.max t (v_min v)) w').
Lemma resync_validator_ok e w ck vhr vs vk vauth f w' :
  resync_validator e w ck vhr vs vk vauth f = Ok w' -> revalidated e w ck vhr vs vk vauth f w'.
Proof.
  intros H. unfold resync_validator in H. cbv zeta in H. stepn H w1 E1. apply harvest_ok in E1.
  stepn H v Ev. apply unpack_val_ok in Ev. stepn H t Et. apply sync_effective_ok in H.
  eapply Revalidated; eauto.
Qed.

Inductive left_ok (e : env) (w : world) (a : harvest_sol_accts) (s : sstake) (w' : world) : Prop :=
| LeftSome (Hv : vote (s_del s) <> 0)
    (Ho : own (get w (hs_prev a)) = e_prog e)
    (Hk : hs_prev a = e_val e (vote (s_del s)) (hs_config a))
    (H : revalidated e w (hs_config a) (hs_vhr a) (e_vault e (hs_config a)) (hs_prev a) (hs_prev_auth a)
           (fun t => csub t (s_lamports s)) w')
| LeftNone (Hv : vote (s_del s) = 0) (Hl : s_lamports s = 0) (Hw : w' = w).
Lemma leave_previous_ok e w a s w' : leave_previous e w a (e_vault e (hs_config a)) s = Ok w' ->
  left_ok e w a s w'.
Proof.
  intros H. unfold leave_previous in H. destruct (N.eqb_spec (vote (s_del s)) 0) as [E|E]; cbn [negb] in H.
  - stepg H G. injection H as <-. now apply LeftNone.
  - stepg H G1. stepg H G2. stepn H v Ev. apply resync_validator_ok in H. now apply LeftSome.
Qed.

Inductive joined_ok (e : env) (w : world) (a : harvest_sol_accts) (cv cs : N) (w' : world) (cv' cs' : N)
    : Prop :=
| JoinedSome (Hv : cv <> 0)
    (Ho : own (get w (hs_cur a)) = e_prog e)
    (Hk : hs_cur a = e_val e cv (hs_config a))
    (Hcv : cv' = cv) (Hcs : cs' = cs)
    (H : revalidated e w (hs_config a) (hs_vhr a) (e_vault e (hs_config a)) (hs_cur a) (hs_cur_auth a)
           (fun t => add64 t cs) w')
| JoinedNoAccount (Hv : cv <> 0)
    (Ho : own (get w (hs_cur a)) <> e_prog e)
    (Hk : hs_cur a = e_val e cv (hs_config a))
    (Hw : w' = w) (Hcv : cv' = 0) (Hcs : cs' = 0)
| JoinedNone (Hv : cv = 0) (Hw : w' = w) (Hcv : cv' = 0) (Hcs : cs' = cs).
Lemma join_current_ok e w a cv cs w' cv' cs' :
  join_current e w a (e_vault e (hs_config a)) cv cs = Ok (w', cv', cs') ->
  joined_ok e w a cv cs w' cv' cs'.
Proof.
  intros H. unfold join_current in H. destruct (N.eqb_spec cv 0) as [E|E]; cbn [negb] in H.
  - injection H as <- <- <-. now apply JoinedNone.
  - stepg H G1. destruct (N.eqb_spec (own (get w (hs_cur a))) (e_prog e)).
    + stepn H v Ev. stepn H w1 E1. apply resync_validator_ok in E1. injection H as <- <- <-.
      now apply JoinedSome.
    + injection H as <- <- <-. now apply JoinedNoAccount.
Qed.

Inductive harvested_sol_ok (e : env) (cx : ctx) (a : harvest_sol_accts) (w w' : world) : Prop :=
| HarvestedPlain c0 s vw
    (Hco : own (get w (hs_config a)) = e_prog e)
    (Hc0 : dat (get w (hs_config a)) = DConfig c0)
    (Hso : own (get w (hs_stake a)) = e_prog e)
    (Hs : dat (get w (hs_stake a)) = DSol s)
    (Hk : hs_stake a = e_sol e (s_native s) (hs_config a))
    (Hau : hs_authority a = authority (s_del s))
    (Hnat : hs_native a = s_native s)
    (Hvw : c_view cx = Some vw)
    (Hsame : vw_effective vw = s_lamports s /\ vw_vote vw = vote (s_del s))
    (H1 : harvested e w (hs_config a) (hs_vhr a) (hs_authority a) (e_vault e (hs_config a)) (hs_stake a)
            None w')
| HarvestedSync c0 s vw kp s1 s3 w1 w2 w3 w4 cv cs
    (Hco : own (get w (hs_config a)) = e_prog e)
    (Hc0 : dat (get w (hs_config a)) = DConfig c0)
    (Hso : own (get w (hs_stake a)) = e_prog e)
    (Hs : dat (get w (hs_stake a)) = DSol s)
    (Hk : hs_stake a = e_sol e (s_native s) (hs_config a))
    (Hau : hs_authority a = authority (s_del s))
    (Hnat : hs_native a = s_native s)
    (Hvw : c_view cx = Some vw)
    (Hdiff : vw_effective vw <> s_lamports s \/ vw_vote vw <> vote (s_del s))
    (Hkp : hs_keeper a = Some kp)
    (H1 : harvested e w (hs_config a) (hs_vhr a) (hs_authority a) (e_vault e (hs_config a)) (hs_stake a)
            (Some kp) w1)
    (Hs1 : dat (get w1 (hs_stake a)) = DSol s1)
    (H2 : left_ok e w1 a s1 w2)
    (H3 : joined_ok e w2 a (vw_vote vw) (vw_effective vw) w3 cv cs)
    (Hs3 : dat (get w3 (hs_stake a)) = DSol s3)
    (H4 : w4 = setd w3 (hs_stake a) (DSol (SStake (set_vote (s_del s3) cv) cs (s_native s3))))
    (H5 : resynced w4 (hs_config a) (hs_stake a) (N.max cs 0) w').

Lemma harvest_sol_staker_rewards_ok e cx a w w' : harvest_sol_staker_rewards e cx a w = Ok w' ->
  harvested_sol_ok e cx a w w'.
Proof.
  intros H. unfold harvest_sol_staker_rewards in H. cbv zeta in H.
  stepn H c0 E0. apply load_config_ok in E0 as [O0 E0].
  stepn H s Es. apply load_sol_ok in Es as (S1 & S2 & S3). stepg H G1. stepg H G2. stepg H G3.
  stepg H G4. stepn H vw Evw. destruct (c_view cx) as [vw'|] eqn:CV; [|discriminate].
  injection Evw as ->.
  destruct (negb (vw_effective vw =? s_lamports s) || negb (vw_vote vw =? vote (s_del s))) eqn:RS.
  - stepn H kp Ek. destruct (hs_keeper a) as [kp'|] eqn:KP; [|discriminate]. injection Ek as <-.
    stepn H w1 E1. apply harvest_ok in E1. simpl in H. stepn H s1 Es1. apply unpack_sol_ok in Es1.
    stepn H w2 E2. apply leave_previous_ok in E2. stepn H p E3. destruct p as [[w3 cv] cs].
    apply join_current_ok in E3. stepn H s3 Es3. apply unpack_sol_ok in Es3.
    apply sync_effective_ok in H.
    eapply (HarvestedSync e cx a w w' c0 s vw kp' s1 s3 w1 w2 w3 _ cv cs); eauto.
    apply orb_true_iff in RS as [R|R]; b2p R; auto.
  - simpl in H. stepn H w1 E1. apply harvest_ok in E1. injection H as <-.
    apply (HarvestedPlain e cx a w w1 c0 s vw); auto.
    apply orb_false_iff in RS as [R1 R2]. apply negb_false_iff in R1. apply negb_false_iff in R2.
    b2p R1. b2p R2. auto.
Qed.

(** ** Validator override *)
Inductive overridden_ok (e : env) (cx : ctx) (a : override_accts) (amount_min : N) (w w' : world) : Prop :=
| OverriddenOk c0 v0 v w1 w2
    (Hco : own (get w (ov_config a)) = e_prog e)
    (Hc0 : dat (get w (ov_config a)) = DConfig c0)
    (Hset : cfg_authority c0 <> 0)
    (Hau : ov_config_auth a = cfg_authority c0)
    (Hsig : signed cx (ov_config_auth a) = true)
    (Hso : own (get w (ov_stake a)) = e_prog e)
    (Hv0 : dat (get w (ov_stake a)) = DVal v0)
    (Hk : ov_stake a = e_val e (vote (v_del v0)) (ov_config a))
    (H1 : harvested e w (ov_config a) (ov_vhr a) (ov_stake_auth a) (e_vault e (ov_config a)) (ov_stake a)
            None w1)
    (Hv : dat (get w1 (ov_stake a)) = DVal v)
    (H2 : w2 = setd w1 (ov_stake a) (DVal (set_v_min v amount_min)))
    (H3 : resynced w2 (ov_config a) (ov_stake a) (N.max (v_total v) amount_min) w').
Lemma validator_override_ok e cx a n w w' : validator_override e cx a n w = Ok w' ->
  overridden_ok e cx a n w w'.
Proof.
  intros H. unfold validator_override in H. cbv zeta in H. stepn H c0 E0. apply load_config_ok in E0 as [O0 E0].
  stepg H G1. stepg H G2. stepg H G3. stepn H v0 Ev0. apply load_val_ok in Ev0 as (V1 & V2 & V3).
  stepn H w1 E1. apply harvest_ok in E1. stepn H v Ev. apply unpack_val_ok in Ev.
  apply sync_effective_ok in H. eapply OverriddenOk; eauto.
Qed.

(** ** Holder rewards *)
Inductive held_ok (e : env) (cx : ctx) (a : harvest_holder_accts) (w w' : world) : Prop :=
| HeldOk c0 c w1 w2 w3
    (Hco : own (get w (hh_config a)) = e_prog e)
    (Hc0 : dat (get w (hh_config a)) = DConfig c0)
    (Hva : e_create_vault e (hh_config a) (cfg_bump c0) = Some (hh_vault_pda a))
    (H1 : synced_cfg w (hh_config a) w1)
    (H2 : rharvested e (with_pda cx (hh_vault_pda a)) w1 (hh_pool a) (hh_ptok a) (hh_vhr a) (hh_mint a)
            (hh_vault_pda a) (c_pool_acc cx mod U128) w2)
    (Hmin : e_rent e (data_len (dat (get w2 (hh_vault_pda a)))) <= lam (get w2 (hh_vault_pda a)))
    (Hex : lam (get w2 (hh_vault_pda a)) = e_rent e (data_len (dat (get w2 (hh_vault_pda a)))) \/
           own (get w2 (hh_vault_pda a)) = e_prog e)
    (H3 : w3 = setl (setl w2 (hh_vault_pda a) (e_rent e (data_len (dat (get w2 (hh_vault_pda a))))))
                    (hh_config a)
                    (lam (get (setl w2 (hh_vault_pda a) (e_rent e (data_len (dat (get w2 (hh_vault_pda a))))))
                              (hh_config a))
                     + (lam (get w2 (hh_vault_pda a)) - e_rent e (data_len (dat (get w2 (hh_vault_pda a)))))))
    (Hov : lam (get w3 (hh_config a)) < U64)
    (Hc : dat (get w2 (hh_config a)) = DConfig c)
    (H4 : w' = setd w3 (hh_config a) (DConfig (set_cfg_last c (lam (get w3 (hh_config a)))))).
Lemma harvest_holder_rewards_ok e cx a w w' : harvest_holder_rewards e cx a w = Ok w' ->
  held_ok e cx a w w'.
Proof.
  intros H. unfold harvest_holder_rewards in H. stepn H c0 E0. apply load_config_ok in E0 as [O0 E0].
  stepg H G1. stepn H t Et. stepg H G2. stepn H vs Ev.
  destruct (e_create_vault e (hh_config a) (cfg_bump c0)) as [vs'|] eqn:EV; [|discriminate].
  injection Ev as ->. stepg H G3. subst vs. stepg H G4. stepg H G5.
  stepn H w1 E1. apply sync_config_lamports_ok in E1. stepn H w2 E2. apply rewards_harvest_ok in E2.
  stepn H w3 E3. stepn H c Ec. apply unpack_config_ok in Ec. injection H as <-.
  unfold transfer_excess in E3. cbv zeta in E3. stepg E3 G6. stepg E3 G7. stepg E3 G8.
  injection E3 as E3. symmetry in E3.
  eapply HeldOk; try eassumption; eauto.
  - apply orb_true_iff in G7 as [G7|G7]; b2p G7; auto. left. lia.
  - subst w3. rewrite lam_setl, N.eqb_refl. exact G8.
  - subst w3. wsi Ec. exact Ec.
Qed.

(** ** Initialisations and simple updates *)
Lemma system_assign_ok sig w k o w' : system_assign sig w k o = Ok w' ->
  (own (get w k) = o /\ w' = w) \/ (own (get w k) <> o /\ sig k = true /\ own (get w k) = 0 /\ w' = seto w k o).
Proof.
  unfold system_assign. destruct (N.eqb_spec (own (get w k)) o); intros H.
  - injection H as <-. auto.
  - stepg H G. apply andb_true_iff in G as [G1 G2]. b2p G2. injection H as <-. auto.
Qed.
Lemma system_allocate_ok sig w k len w' : system_allocate sig w k len = Ok w' ->
  sig k = true /\ own (get w k) = 0 /\ data_empty (dat (get w k)) = true /\
  w' = setd w k (DRaw (repeat 0 (N.to_nat len))).
Proof.
  unfold system_allocate. intros H. stepg H G. apply andb_true_iff in G as [G1 G3].
  apply andb_true_iff in G1 as [G1 G2]. b2p G2. injection H as <-. auto.
Qed.
Lemma data_empty_ok d : data_empty d = true -> d = DRaw [].
Proof.
  unfold data_empty. intros H. b2p H. destruct d; simpl in H; try discriminate.
  destruct b; [auto|discriminate].
Qed.

Inductive config_created (e : env) (cx : ctx) (a : init_config_accts) (slash auth cd b sy du : N)
    (w w' : world) : Prop :=
| ConfigCreated t
    (Hvp : ic_vault_pda a = e_vault e (ic_config a))
    (Hve : dat (get w (ic_vault_pda a)) = DRaw [])
    (Hvo : own (get w (ic_vault_pda a)) = e_prog e \/ own (get w (ic_vault_pda a)) = 0)
    (Hvh : ic_vhr a = e_holder e (ic_vault_pda a))
    (Hm : exists m, dat (get w (ic_mint a)) = DMint m)
    (Ht : dat (get w (ic_vault a)) = DToken t)
    (Hto : t_owner t = e_vault e (ic_config a)) (Htc : t_close t = None) (Htd : t_delegate t = None)
    (Htm : t_mint t = ic_mint a) (Hta : t_amount t = 0)
    (Hco : own (get w (ic_config a)) = e_prog e \/ ic_config a = ic_vault_pda a)
    (Hlen : data_len (dat (get w (ic_config a))) = CONFIG_LEN)
    (Hun : config_uninitialized e (dat (get w (ic_config a))) = true)
    (Hrent : e_rent e CONFIG_LEN <= lam (get w (ic_config a)))
    (Hbps : b <= MAX_BPS)
    (Ho : forall k, own (get w' k) = if ic_vault_pda a =? k then e_prog e else own (get w k))
    (Hd : forall k, dat (get w' k) =
        if ic_config a =? k
        then DConfig (Cfg auth slash (ic_vault a) cd 0 sy (lam (get w (ic_config a))) du 0 b
                          (e_bump e (ic_config a)) 0)
        else dat (get w k))
    (Hl : forall k, lam (get w' k) = lam (get w k)).
Lemma initialize_config_ok e cx a s au cd b sy du w w' :
  initialize_config e cx a s au cd b sy du w = Ok w' -> config_created e cx a s au cd b sy du w w'.
Proof.
  intros H. unfold initialize_config in H. cbv zeta in H. stepn H m Em. apply unpack_mint_ok in Em.
  stepg H G1. stepg H G2. apply data_empty_ok in G2. stepn H w1 E1. apply system_assign_ok in E1.
  stepg H G3. stepn H t Et. apply unpack_token_ok in Et. stepg H G4. stepg H G5. stepg H G6. stepg H G7.
  stepg H G8. stepg H G9. stepg H G10. stepg H G11. stepg H G12. stepg H G13. injection H as <-.
  assert ((forall k, own (get w1 k) = if ic_vault_pda a =? k then e_prog e else own (get w k)) /\
          (forall k, dat (get w1 k) = dat (get w k)) /\ (forall k, lam (get w1 k) = lam (get w k)) /\
          (own (get w (ic_vault_pda a)) = e_prog e \/ own (get w (ic_vault_pda a)) = 0))
    as (A1 & A2 & A3 & A4).
  { destruct E1 as [[E ->]|(E & _ & E' & ->)].
    - repeat split; auto. intros k. destruct (N.eqb_spec (ic_vault_pda a) k); subst; auto.
    - repeat split; auto; intros k; ws; auto. }
  rewrite A2 in *. rewrite A3 in *. rewrite A1 in G9.
  apply (ConfigCreated e cx a s au cd b sy du w _ t); auto.
  - eauto.
  - destruct (N.eqb_spec (ic_vault_pda a) (ic_config a)); auto.
  - intros k. ws. apply A1.
  - intros k. ws. now rewrite A2.
  - intros k. ws. apply A3.
Qed.

Inductive val_created (e : env) (cx : ctx) (a : init_val_accts) (w w' : world) : Prop :=
| ValCreated c wd
    (Hco : own (get w (iv_config a)) = e_prog e) (Hc : dat (get w (iv_config a)) = DConfig c)
    (Hvo : own (get w (iv_vote a)) = e_votep e) (Hv : dat (get w (iv_vote a)) = DVote wd)
    (Hdu : iv_duna a = e_duna e wd (cfg_duna c))
    (Hdb : head (raw_bytes e (dat (get w (iv_duna a)))) = Some 1)
    (Hk : iv_stake a = e_val e (iv_vote a) (iv_config a))
    (Hso : own (get w (iv_stake a)) = 0) (Hsd : dat (get w (iv_stake a)) = DRaw [])
    (Hrent : e_rent e VAL_LEN <= lam (get w (iv_stake a)))
    (Ho : forall k, own (get w' k) = if iv_stake a =? k then e_prog e else own (get w k))
    (Hd : forall k, dat (get w' k) =
        if iv_stake a =? k then DVal (VStake (Del 0 0 0 wd (iv_vote a) 0 0) 0 0) else dat (get w k))
    (Hl : forall k, lam (get w' k) = lam (get w k)).
Lemma check_duna_ok e w s doc h u : check_duna e w s doc h = Ok u ->
  doc = e_duna e s h /\ head (raw_bytes e (dat (get w doc))) = Some 1.
Proof. intros H. unfold check_duna in H. stepg H G. apply require_ok in H. b2p H. auto. Qed.

Lemma system_create_ok sig w k len o w1 w2 : 
  system_allocate sig w k len = Ok w1 -> system_assign sig w1 k o = Ok w2 ->
  own (get w k) = 0 /\ dat (get w k) = DRaw [] /\
  (forall x, own (get w2 x) = if k =? x then o else own (get w x)) /\
  (forall x, x <> k -> dat (get w2 x) = dat (get w x)) /\
  (forall x, lam (get w2 x) = lam (get w x)).
Proof.
  intros H1 H2. apply system_allocate_ok in H1 as (A1 & A2 & A3 & ->). apply data_empty_ok in A3.
  apply system_assign_ok in H2. wsi H2.
  split; [auto|]. split; [auto|].
  destruct H2 as [[E ->]|(E & _ & E' & ->)].
  - repeat split; intros x; ws; auto.
    + destruct (N.eqb_spec k x); subst; auto.
    + intros NE. destruct (N.eqb_spec k x); congruence.
  - repeat split; intros x; ws; auto. intros NE. destruct (N.eqb_spec k x); congruence.
Qed.

Lemma initialize_validator_stake_ok e cx a w w' :
  initialize_validator_stake e cx a w = Ok w' -> val_created e cx a w w'.
Proof.
  intros H. unfold initialize_validator_stake in H. stepn H c Ec. apply load_config_ok in Ec as [C1 C2].
  stepg H G1. stepn H wd Ewd. apply vote_withdrawer_ok in Ewd. stepn H u Eu.
  apply check_duna_ok in Eu as [D1 D2]. cbv zeta in H. stepg H G2. stepg H G3. stepg H G4.
  stepn H w1 E1. stepn H w2 E2. injection H as <-.
  destruct (system_create_ok _ _ _ _ _ _ _ E1 E2) as (A1 & A2 & A3 & A4 & A5).
  apply (ValCreated e cx a w _ c wd); auto.
  - intros k. ws. apply A3.
  - intros k. ws. destruct (N.eqb_spec (iv_stake a) k); auto.
  - intros k. ws. apply A5.
Qed.

Inductive sol_created (e : env) (cx : ctx) (a : init_sol_accts) (w w' : world) : Prop :=
| SolCreated c vw v au
    (Hco : own (get w (is_config a)) = e_prog e) (Hc : dat (get w (is_config a)) = DConfig c)
    (Hvw : c_view cx = Some vw) (Hvv : vw_vote vw <> 0) (Hvwd : vw_withdrawer vw <> 0)
    (Hdu : is_duna a = e_duna e (vw_withdrawer vw) (cfg_duna c))
    (Hdb : head (raw_bytes e (dat (get w (is_duna a)))) = Some 1)
    (Hvo : own (get w (is_val a)) = e_prog e)
    (Hvk : is_val a = e_val e (vw_vote vw) (is_config a))
    (Hv : dat (get w (is_val a)) = DVal v)
    (Hk : is_stake a = e_sol e (is_native a) (is_config a))
    (Hso : own (get w (is_stake a)) = 0) (Hsd : dat (get w (is_stake a)) = DRaw [])
    (Hov : is_override a = e_override e (vw_withdrawer vw) (is_config a))
    (Hau : (dat (get w (is_override a)) = DRaw [] /\ au = vw_withdrawer vw) \/
           (dat (get w (is_override a)) <> DRaw [] /\
            au = num_at (raw_bytes e (dat (get w (is_override a)))) 0 32))
    (Hrent : e_rent e SOL_LEN <= lam (get w (is_stake a)))
    (Hb : v_total v + vw_effective vw < U64)
    (Ho : forall k, own (get w' k) = if is_stake a =? k then e_prog e else own (get w k))
    (Hd : forall k, dat (get w' k) =
        if is_val a =? k then DVal (set_v_total v (v_total v + vw_effective vw))
        else if is_stake a =? k
        then DSol (SStake (Del 0 0 0 au (vw_vote vw) 0 0) (vw_effective vw) (is_native a))
        else dat (get w k))
    (Hl : forall k, lam (get w' k) = lam (get w k)).
Lemma initialize_sol_staker_stake_ok e cx a w w' :
  initialize_sol_staker_stake e cx a w = Ok w' -> sol_created e cx a w w'.
Proof.
  intros H. unfold initialize_sol_staker_stake in H. stepn H c Ec. apply load_config_ok in Ec as [C1 C2].
  stepg H G1. stepn H vw Evw. destruct (c_view cx) as [vw'|] eqn:CV; [|discriminate]. injection Evw as ->.
  stepg H G2. stepg H G3. stepn H u Eu. apply check_duna_ok in Eu as [D1 D2].
  stepg H G4. stepg H G5. stepn H v0 Ev0. apply unpack_val_ok in Ev0. cbv zeta in H.
  stepg H G6. stepg H G7. apply data_empty_ok in G7. stepg H G8. stepn H au Eau. stepg H G9.
  stepn H w1 E1. stepn H w2 E2. stepn H v Ev. apply unpack_val_ok in Ev. wsi Ev.
  assert (is_stake a <> is_val a) as NE by (intros EE; rewrite <- EE, G7 in Ev0; discriminate).
  rewrite (proj2 (N.eqb_neq _ _) NE) in Ev.
  destruct (system_create_ok _ _ _ _ _ _ _ E1 E2) as (A1 & A2 & A3 & A4 & A5).
  rewrite A4 in Ev by auto. rewrite Ev0 in Ev. injection Ev as <-.
  stepn H tt' Et. apply add64_ok in Et as [-> Lt']. injection H as <-.
  apply (SolCreated e cx a w _ c vw v0 au); auto.
  - destruct (data_empty (dat (get w (is_override a)))) eqn:DE.
    + apply data_empty_ok in DE. injection Eau as <-. auto.
    + right. split. { intros X. rewrite X in DE. discriminate. }
      destruct (32 <=? _); [injection Eau as <-; auto|discriminate].
  - intros k. ws. apply A3.
  - intros k. ws. destruct (N.eqb_spec (is_val a) k); auto.
    destruct (N.eqb_spec (is_stake a) k); auto.
  - intros k. ws. apply A5.
Qed.

Inductive authority_set (e : env) (cx : ctx) (a : set_auth_accts) (t : authority_type) (w w' : world) : Prop :=
| AuthoritySet c
    (Hsig : signed cx (sa_authority a) = true)
    (Hco : own (get w (sa_account a)) = e_prog e) (Hc : dat (get w (sa_account a)) = DConfig c)
    (Hau : sa_authority a = match t with AuthConfig => cfg_authority c | AuthSlash => cfg_slash c end)
    (Hne : sa_authority a <> 0)
    (Hw : w' = setd w (sa_account a)
        (DConfig match t with
                 | AuthConfig => set_cfg_authority c (sa_new a)
                 | AuthSlash => set_cfg_slash c (sa_new a)
                 end)).
Lemma set_authority_ok e cx a t w w' : set_authority_ix e cx a t w = Ok w' -> authority_set e cx a t w w'.
Proof.
  intros H. unfold set_authority_ix in H. stepg H G1. stepn H c Ec. apply load_config_ok in Ec as [C1 C2].
  cbv zeta in H. stepg H G2. stepg H G3. injection H as <-.
  eapply AuthoritySet; eauto. destruct t; congruence.
Qed.

Definition update_field (c : config) (f : config_field) : config :=
  match f with
  | CooldownTimeSeconds x => set_cfg_cooldown c x
  | MaxDeactivationBasisPoints x => set_cfg_bps c x
  | SyncRewardsLamports x => set_cfg_sync c x
  end.
Inductive config_updated (e : env) (cx : ctx) (a : update_config_accts) (f : config_field) (w w' : world) : Prop :=
| ConfigUpdated c
    (Hco : own (get w (uc_config a)) = e_prog e) (Hc : dat (get w (uc_config a)) = DConfig c)
    (Hset : cfg_authority c <> 0)
    (Hau : uc_authority a = cfg_authority c)
    (Hsig : signed cx (uc_authority a) = true)
    (Hf : forall x, f = MaxDeactivationBasisPoints x -> x <= MAX_BPS)
    (Hw : w' = setd w (uc_config a) (DConfig (update_field c f))).
Lemma update_config_ok e cx a f w w' : update_config e cx a f w = Ok w' -> config_updated e cx a f w w'.
Proof.
  intros H. unfold update_config in H. stepn H c Ec. apply load_config_ok in Ec as [C1 C2].
  stepg H G1. stepg H G2. stepg H G3. stepn H c' Ec'. injection H as <-.
  assert (c' = update_field c f /\ forall x, f = MaxDeactivationBasisPoints x -> x <= MAX_BPS) as [-> F].
  { destruct f; try (injection Ec' as <-; split; [auto|discriminate]).
    stepg Ec' G. injection Ec' as <-. split; auto. intros y [= <-]. auto. }
  eapply ConfigUpdated; eauto.
Qed.

Inductive authority_synced (e : env) (cx : ctx) (a : sync_auth_accts) (w w' : world) : Prop :=
| AuthoritySynced c v wd
    (Hco : own (get w (sy_config a)) = e_prog e) (Hc : dat (get w (sy_config a)) = DConfig c)
    (Hk : sy_stake a = e_val e (sy_vote a) (sy_config a))
    (Hso : own (get w (sy_stake a)) = e_prog e) (Hv : dat (get w (sy_stake a)) = DVal v)
    (Hvo : own (get w (sy_vote a)) = e_votep e) (Hvd : dat (get w (sy_vote a)) = DVote wd)
    (Hw : w' = put_del w (sy_stake a) (set_authority (v_del v) wd)).
Lemma validator_sync_authority_ok e cx a w w' : validator_sync_authority e cx a w = Ok w' ->
  authority_synced e cx a w w'.
Proof.
  intros H. unfold validator_sync_authority in H. stepn H c Ec. apply load_config_ok in Ec as [C1 C2].
  stepg H G1. stepn H v Ev. stepg H G2. stepn H wd Ewd. apply vote_withdrawer_ok in Ewd. stepg H G3.
  injection H as <-. destruct (unpack_val (dat (get w (sy_stake a)))) eqn:UV; try discriminate.
  injection Ev as ->. apply unpack_val_ok in UV. eapply AuthoritySynced; eauto.
Qed.

(** The two staking and slashing handlers and the plain validator harvest. *)
Inductive staked_any (e : env) (cx : ctx) (a : stake_accts) (amount : N) (w w' : world) : Prop :=
| StakedAny c0
    (Hco : own (get w (st_config a)) = e_prog e) (Hc0 : dat (get w (st_config a)) = DConfig c0)
    (Hso : own (get w (st_stake a)) = e_prog e)
    (Hbel : belongs e (st_config a) (st_stake a) (dat (get w (st_stake a))))
    (H : staked_ok e cx a amount w w').
Lemma validator_stake_tokens_ok e cx a n w w' : validator_stake_tokens e cx a n w = Ok w' ->
  staked_any e cx a n w w' /\ exists v, dat (get w (st_stake a)) = DVal v.
Proof.
  intros H. unfold validator_stake_tokens in H. stepn H c0 E0. apply load_config_ok in E0 as [C1 C2].
  stepn H v Ev. apply load_val_ok in Ev as (V1 & V2 & V3). apply stake_tokens_ok in H.
  split; eauto. eapply StakedAny; eauto. rewrite V2. exact V3.
Qed.
Lemma sol_staker_stake_tokens_ok e cx a n w w' : sol_staker_stake_tokens e cx a n w = Ok w' ->
  staked_any e cx a n w w' /\ exists v, dat (get w (st_stake a)) = DSol v.
Proof.
  intros H. unfold sol_staker_stake_tokens in H. stepn H c0 E0. apply load_config_ok in E0 as [C1 C2].
  stepn H v Ev. apply load_sol_ok in Ev as (V1 & V2 & V3). apply stake_tokens_ok in H.
  split; eauto. eapply StakedAny; eauto. rewrite V2. exact V3.
Qed.
Inductive slashed_any (e : env) (cx : ctx) (a : slash_accts) (amount : N) (w w' : world) : Prop :=
| SlashedAny c0
    (Hco : own (get w (sl_config a)) = e_prog e) (Hc0 : dat (get w (sl_config a)) = DConfig c0)
    (Hso : own (get w (sl_stake a)) = e_prog e)
    (Hbel : belongs e (sl_config a) (sl_stake a) (dat (get w (sl_stake a))))
    (H : slashed_ok e cx a amount w w').
Lemma slash_validator_stake_ok e cx a n w w' : slash_validator_stake e cx a n w = Ok w' ->
  slashed_any e cx a n w w' /\ exists v, dat (get w (sl_stake a)) = DVal v.
Proof.
  intros H. unfold slash_validator_stake in H. stepn H c0 E0. apply load_config_ok in E0 as [C1 C2].
  stepn H v Ev. apply load_val_ok in Ev as (V1 & V2 & V3). apply slash_stake_ok in H; auto.
  - split; eauto. eapply SlashedAny; eauto. rewrite V2. exact V3.
  - now rewrite V2.
Qed.
Lemma slash_sol_staker_stake_ok e cx a n w w' : slash_sol_staker_stake e cx a n w = Ok w' ->
  slashed_any e cx a n w w' /\ exists v, dat (get w (sl_stake a)) = DSol v.
Proof.
  intros H. unfold slash_sol_staker_stake in H. stepn H c0 E0. apply load_config_ok in E0 as [C1 C2].
  stepn H v Ev. apply load_sol_ok in Ev as (V1 & V2 & V3). apply slash_stake_ok in H; auto.
  - split; eauto. eapply SlashedAny; eauto. rewrite V2. exact V3.
  - now rewrite V2.
Qed.
Inductive val_harvested (e : env) (a : harvest_val_accts) (w w' : world) : Prop :=
| ValHarvested c0 v
    (Hco : own (get w (hv_config a)) = e_prog e) (Hc0 : dat (get w (hv_config a)) = DConfig c0)
    (Hso : own (get w (hv_stake a)) = e_prog e) (Hv : dat (get w (hv_stake a)) = DVal v)
    (Hk : hv_stake a = e_val e (vote (v_del v)) (hv_config a))
    (H : harvested e w (hv_config a) (hv_vhr a) (hv_authority a) (e_vault e (hv_config a)) (hv_stake a)
           None w').
Lemma harvest_validator_rewards_ok e cx a w w' : harvest_validator_rewards e cx a w = Ok w' ->
  val_harvested e a w w'.
Proof.
  intros H. unfold harvest_validator_rewards in H. stepn H c0 E0. apply load_config_ok in E0 as [C1 C2].
  stepn H v Ev. apply load_val_ok in Ev as (V1 & V2 & V3). cbv zeta in H. stepg H G1. stepg H G2.
  apply harvest_ok in H. eapply ValHarvested; eauto.
Qed.

(** What a successful instruction did. *)
Inductive did (e : env) (cx : ctx) (w w' : world) : call -> Prop :=
| DidInitConfig a s au cd b sy du : config_created e cx a s au cd b sy du w w' ->
    did e cx w w' (CInitializeConfig a s au cd b sy du)
| DidInitVal a : val_created e cx a w w' -> did e cx w w' (CInitializeValidatorStake a)
| DidValStake a n v : staked_any e cx a n w w' -> dat (get w (st_stake a)) = DVal v ->
    did e cx w w' (CValidatorStakeTokens a n)
| DidHolder a : held_ok e cx a w w' -> did e cx w w' (CHarvestHolderRewards a)
| DidValHarvest a : val_harvested e a w w' -> did e cx w w' (CHarvestValidatorRewards a)
| DidValSlash a n v : slashed_any e cx a n w w' -> dat (get w (sl_stake a)) = DVal v ->
    did e cx w w' (CSlashValidatorStake a n)
| DidSetAuthority a t : authority_set e cx a t w w' -> did e cx w w' (CSetAuthority a t)
| DidUpdate a f : config_updated e cx a f w w' -> did e cx w w' (CUpdateConfig a f)
| DidInitSol a : sol_created e cx a w w' -> did e cx w w' (CInitializeSolStakerStake a)
| DidSolStake a n s : staked_any e cx a n w w' -> dat (get w (st_stake a)) = DSol s ->
    did e cx w w' (CSolStakerStakeTokens a n)
| DidSolHarvest a : harvested_sol_ok e cx a w w' -> did e cx w w' (CHarvestSolStakerRewards a)
| DidUnstake a n : unstaked_ok e cx a n w w' -> did e cx w w' (CUnstakeTokens a n)
| DidSolSlash a n s : slashed_any e cx a n w w' -> dat (get w (sl_stake a)) = DSol s ->
    did e cx w w' (CSlashSolStakerStake a n)
| DidMove a n : moved_ok e cx a n w w' -> did e cx w w' (CSolStakerMoveTokens a n)
| DidOverride a n : overridden_ok e cx a n w w' -> did e cx w w' (CValidatorOverride a n)
| DidSyncAuthority a : authority_synced e cx a w w' -> did e cx w w' (CValidatorSyncAuthority a).

Lemma handler_did e cx c w w' : handler e cx c w = Ok w' -> did e cx w w' c.
Proof.
  destruct c; simpl; intros H.
  - apply initialize_config_ok in H. now constructor.
  - apply initialize_validator_stake_ok in H. now constructor.
  - apply validator_stake_tokens_ok in H as [H [v V]]. econstructor; eauto.
  - apply harvest_holder_rewards_ok in H. now constructor.
  - apply harvest_validator_rewards_ok in H. now constructor.
  - apply slash_validator_stake_ok in H as [H [v V]]. econstructor; eauto.
  - apply set_authority_ok in H. now constructor.
  - apply update_config_ok in H. now constructor.
  - apply initialize_sol_staker_stake_ok in H. now constructor.
  - apply sol_staker_stake_tokens_ok in H as [H [v V]]. econstructor; eauto.
  - apply harvest_sol_staker_rewards_ok in H. now constructor.
  - apply unstake_tokens_ok in H. now constructor.
  - apply slash_sol_staker_stake_ok in H as [H [v V]]. econstructor; eauto.
  - apply sol_staker_move_tokens_ok in H. now constructor.
  - apply validator_override_ok in H. now constructor.
  - apply validator_sync_authority_ok in H. now constructor.
Qed.

Lemma run_ok e cx c w w' : run e cx c w = Ok w' ->
  handler e cx c w = Ok w' /\ did e cx w w' c /\ total_lamports w' = total_lamports w /\
  (forall k, get w' k <> get w k -> writable cx k = true).
Proof.
  intros H. unfold run in H. stepn H w1 E1. stepn H u E2. injection H as <-.
  split; [auto|]. split; [now apply handler_did|].
  unfold runtime_check in E2. stepg E2 G. apply require_ok in E2. split; [auto|].
  intros k NE. rewrite forallb_forall in E2.
  assert (is_Some (w !! k) \/ is_Some (w1 !! k)) as IN.
  { destruct (w !! k) eqn:A; eauto. destruct (w1 !! k) eqn:B; eauto.
    exfalso. apply NE. unfold get. rewrite A, B. auto. }
  assert (In k (map fst (map_to_list w ++ map_to_list w1))) as I.
  { apply in_map_iff. destruct IN as [[x X]|[x X]]; exists (k, x); (split; [auto|]);
      apply in_app_iff; [left|right]; apply elem_of_list_In, elem_of_map_to_list, X. }
  apply E2 in I. apply orb_true_iff in I as [I|I]; auto.
  apply bool_decide_eq_true in I. congruence.
Qed.
