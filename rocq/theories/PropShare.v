(** C74: over any history a stake account gets its fair part of the staking rewards. *)
From Coq Require Import QArith Lqa.
From Verif Require Import Base Types Layout Instr Math External Processor Runtime History Spec SpecReward SpecShare
  WorldLemmas Effects Handlers Evolve Sane Wf Totals Arith Nets Caps Stakers Deposits Inv Life Tokens Gov Flow
  Rewards Collect Pays Progress Demo PropState PropTokens PropAuth PropReward SpecSolvency Solvency.
Local Open Scope N_scope.

Lemma distributes_syncs ck c : distributes ck c <-> syncs c = true /\ call_config c = ck.
Proof. destruct c; simpl; intuition discriminate. Qed.

(** A settlement of the accounts [ks], as far as staking rewards go. *)
Record cleared_stake (e : env) (ck : pubkey) (ks : list pubkey) (w w' : world) : Prop := {
  cs_nd : NoDup ks;
  cs_in : forall x, In x ks -> exists d', stake_of e w' ck x = Some d' /\ last_stake d' = acc_at w ck;
  cs_out : forall x, ~ In x ks -> stake_of e w' ck x = stake_of e w ck x;
}.
(** The accounts settled have the accumulator recorded, the others are untouched. *)
Lemma run_clears e cx c w w' ck : env_ok e -> reachable e w -> run e cx c w = Ok w' -> distributes ck c -> keeper_in c <> Some ck ->
  exists ks, cleared_stake e ck ks w w' /\ forall k, In k ks <-> settles_account e cx w ck k c.
Proof.
  intros OK R RUN DI NK. pose proof (inv_reachable _ _ OK R) as I. pose proof (i_sane _ _ I) as S.
  pose proof (reach_acc_ok e w ck OK R) as A. apply run_ok in RUN as (_ & D & T & _).
  assert (forall ks, cleared e ck ks w w' -> (forall k, In k ks <-> settles_account e cx w ck k c) ->
    exists ks, cleared_stake e ck ks w w' /\ forall k, In k ks <-> settles_account e cx w ck k c) as G.
  { intros ks [ND CI CO] IFF. exists ks. split; [|exact IFF]. split; [exact ND| |exact CO]. intros k K. destruct (CI k K) as (d0 & S0 & L & _). eauto. }
  destruct D; cbn [distributes] in DI; try contradiction; subst ck.
  - destruct (staked_pays _ _ _ _ _ _ OK S A H T) as (TO & _). eapply G; [eapply touched_cleared; exact TO|].
    clear. unfold settles_account. simpl. intuition.
  - eapply (G []); [|clear; unfold settles_account; simpl; intuition]. split; [constructor|intros x []|]. intros x _. eapply held_stakes; eauto.
  - destruct (val_harvested_pays _ _ _ _ A H T) as [TO _]. eapply G; [eapply touched_cleared; exact TO|].
    clear. unfold settles_account. simpl. intuition.
  - destruct (slashed_pays _ _ _ _ _ _ OK S A H T) as [TO _]. eapply G; [eapply touched_cleared; exact TO|].
    clear. unfold settles_account. simpl. intuition.
  - destruct (staked_pays _ _ _ _ _ _ OK S A H T) as (TO & _). eapply G; [eapply touched_cleared; exact TO|].
    clear. unfold settles_account. simpl. intuition.
  - destruct (harvest_sol_collects _ _ _ _ _ OK S A H T) as (s & vw & SA & SS0 & V & _ & [((E1 & E2) & CL & _)|(NE & kp & K & SY)]).
    + eapply G; [eapply touched_cleared, touched_collected; exact CL|]. intros k. split.
      * intros [<-|[]]. split; [reflexivity|]. exists s, vw. split; [exact SA|]. split; [exact V|]. now rewrite E1, E2, !N.eqb_refl.
      * intros (_ & s1 & v1 & SA1 & V1 & X). rewrite V in V1. injection V1 as <-.
        assert (s1 = s) as -> by (destruct SA as [_ Q1], SA1 as [_ Q2]; congruence).
        rewrite E1, E2, !N.eqb_refl in X. simpl in X. left. auto.
    + destruct SY as [S1 S2 (ks & c1 & ND & SW & _ & IK & OK' & _)]; [simpl in NK; congruence|].
      eapply (G ks).
      * split; auto. intros x X. destruct (IK x X) as (c2 & d & _ & SD & L1 & L2). exists d. rewrite <- S1, <- S2. auto.
      * assert ((vw_effective vw =? s_lamports s) && (vw_vote vw =? vote (s_del s)) = false) as B.
        { apply andb_false_iff. destruct NE as [NE|NE]; apply N.eqb_neq in NE; auto. }
        intros k. rewrite SW. split.
        -- intros X. split; [reflexivity|]. exists s, vw. split; [exact SA|]. split; [exact V|]. now rewrite B.
        -- intros (_ & s1 & v1 & SA1 & V1 & X). rewrite V in V1. injection V1 as <-.
           assert (s1 = s) as -> by (destruct SA as [_ Q1], SA1 as [_ Q2]; congruence). now rewrite B in X.
  - destruct (unstaked_pays _ _ _ _ _ _ OK S A H T) as (TO & _). eapply G; [eapply touched_cleared; exact TO|].
    clear. unfold settles_account. simpl. intuition.
  - destruct (slashed_pays _ _ _ _ _ _ OK S A H T) as [TO _]. eapply G; [eapply touched_cleared; exact TO|].
    clear. unfold settles_account. simpl. intuition.
  - destruct (moved_pays _ _ _ _ _ _ A H T) as [TO _]. eapply G; [eapply touched_cleared; exact TO|].
    clear. unfold settles_account. simpl. intuition.
  - destruct (overridden_pays _ _ _ _ _ _ A H T) as [TO _]. eapply G; [eapply touched_cleared; exact TO|].
    clear. unfold settles_account. simpl. intuition.
Qed.
Lemma run_cleared e cx c w w' ck : env_ok e -> reachable e w -> run e cx c w = Ok w' -> distributes ck c -> keeper_in c <> Some ck ->
  (forall k, settles_account e cx w ck k c -> exists d', stake_of e w' ck k = Some d' /\ last_stake d' = acc_at w ck) /\
  (forall k, ~ settles_account e cx w ck k c -> stake_of e w' ck k = stake_of e w ck k).
Proof.
  intros OK R RUN DI NK. destruct (run_clears _ _ _ _ _ _ OK R RUN DI NK) as (ks & [_ CI CO] & IFF).
  split; intros k K; [apply CI; now rewrite IFF|apply CO; now rewrite IFF].
Qed.
(** Other instructions leave what the account is credited with alone. *)
Lemma quiet_stake e cx w w' c k d : env_ok e -> sane e w -> did e cx w w' c -> syncs c = false ->
  stake_of e w (call_config c) k = Some d -> exists d', stake_of e w' (call_config c) k = Some d' /\
    last_stake d' = last_stake d /\ effective d' = effective d.
Proof.
  intros OK S D Q SO. destruct D; try discriminate; cbn [call_config] in *.
  - exists d. rewrite (stake_of_created_config _ _ _ _ _ _ _ _ _ _ _ OK S H). auto.
  - destruct (stake_of_created_val _ _ _ _ _ OK H) as ((d0 & SD & Z1 & Z2 & O) & R). exists d. rewrite R; [auto|]. intros ->. apply O. apply (stake_of_some _ _ _ _ _ SO).
  - exists d. split; [|auto]. destruct H. subst w'. revert SO. unfold stake_of, stake_in. ws.
    destruct (N.eqb_spec (sa_account a) k) as [<-|]; auto. rewrite Hc. now destruct (_ =? _).
  - exists d. split; [|auto]. destruct H. subst w'. revert SO. unfold stake_of, stake_in. ws.
    destruct (N.eqb_spec (uc_config a) k) as [<-|]; auto. rewrite Hc. now destruct (_ =? _).
  - destruct (stake_of_created_sol _ _ _ _ _ OK H) as ((d0 & SD & Z1 & Z2 & O) & R). exists d. rewrite R; [auto|]. intros ->. apply O. apply (stake_of_some _ _ _ _ _ SO).
  - destruct H. subst w'. revert SO. unfold put_del, stake_of, stake_in. ws.
    destruct (N.eqb_spec (sy_stake a) k) as [<-|]; [|intros; exists d; auto]. rewrite Hv. cbn.
    repeat (destruct (_ =? _)); intros [= <-]; eexists; (split; [reflexivity|auto]).
Qed.

(** ** Fractions *)
Lemma q_le a b : a <= b -> (q a <= q b)%Q.
Proof. intros H. unfold q. rewrite <- Zle_Qle. lia. Qed.
Lemma q_add a b : (q (a + b) == q a + q b)%Q.
Proof. unfold q. rewrite N2Z.inj_add, inject_Z_plus. reflexivity. Qed.
Lemma q_mul a b : (q (a * b) == q a * q b)%Q.
Proof. unfold q. rewrite N2Z.inj_mul, inject_Z_mult. reflexivity. Qed.
Lemma q_pos a : 0 < a -> (0 < q a)%Q.
Proof. intros H. unfold q. change 0%Q with (inject_Z 0). rewrite <- Zlt_Qlt. lia. Qed.
Lemma q_nonneg a : (0 <= q a)%Q.
Proof. apply (q_le 0). lia. Qed.
Lemma q_div_le a b c : 0 < b -> (q c * q b <= q a)%Q -> (q c <= q a / q b)%Q.
Proof. intros H L. apply Qle_shift_div_l; [now apply q_pos|exact L]. Qed.
Lemma q_floor a b : 0 < b -> (q (a / b) <= q a / q b)%Q /\ (q a / q b <= q (a / b) + 1)%Q.
Proof.
  intros H. pose proof (N.div_mod a b ltac:(lia)) as DM. pose proof (N.mod_lt a b ltac:(lia)) as ML.
  set (x := a / b) in *. set (y := a mod b) in *. clearbody x y. split.
  - apply Qle_shift_div_l; [now apply q_pos|]. rewrite <- q_mul. apply q_le. nia.
  - apply Qle_shift_div_r; [now apply q_pos|]. change 1%Q with (q 1). rewrite <- q_add, <- q_mul. apply q_le. nia.
Qed.
Lemma since_exact a x b : since a b + x < 2 ^ 128 -> since ((a + x) mod 2 ^ 128) b = since a b + x.
Proof.
  unfold since. intros H. rewrite N2Z.inj_mod by lia. change (Z.of_N (2 ^ 128)) with (2 ^ 128)%Z. set (M := (2 ^ 128)%Z) in *.
  assert (0 < M)%Z by reflexivity. rewrite Zminus_mod_idemp_l, N2Z.inj_add.
  pose proof (Z.mod_pos_bound (Z.of_N a - Z.of_N b) M ltac:(lia)) as B.
  replace (Z.of_N a + Z.of_N x - Z.of_N b)%Z with ((Z.of_N a - Z.of_N b) + Z.of_N x)%Z by lia.
  rewrite <- Zplus_mod_idemp_l. assert (Z.of_N (2 ^ 128) = M) as E by reflexivity.
  rewrite Z.mod_small; [rewrite Z2N.inj_add by lia; rewrite N2Z.id; reflexivity|].
  apply N2Z.inj_lt in H. rewrite E, N2Z.inj_add, Z2N.id in H by lia. lia.
Qed.
(** What the account is owed once everything is distributed. *)
Definition due (w : world) (ck : pubkey) (c : config) (d : delegation) : Q :=
  (q (since (acc_now (lam (get w ck)) c) (last_stake d)) * q (effective d) / q (10 ^ 18))%Q.
Lemma due_upper w ck c d : (due w ck c d <= credit c d + fair w ck c d)%Q.
Proof.
  unfold due, credit, fair, acc_now. set (l := lam (get w ck) - cfg_last c). destruct (N.eqb_spec (cfg_effective c) 0) as [->|NZ].
  - change (q 0) with 0%Q. unfold Qdiv at 3. change (/ 0)%Q with 0%Q. rewrite Qmult_0_r, Qplus_0_r. apply Qle_refl.
  - set (x := l * 10 ^ 18 / cfg_effective c). assert (0 < q (10 ^ 18))%Q as P18 by (apply q_pos; reflexivity).
    apply Qle_shift_div_r; [exact P18|].
    assert ((q (since (cfg_acc c) (last_stake d)) * q (effective d) / q (10 ^ 18) + q l * q (effective d) / q (cfg_effective c)) * q (10 ^ 18)
      == (q (since (cfg_acc c) (last_stake d)) + q l * q (10 ^ 18) / q (cfg_effective c)) * q (effective d))%Q as ->.
    { field. split; intros Z; [apply (Qlt_irrefl 0); rewrite <- Z at 2; apply q_pos; lia|apply (Qlt_irrefl 0); rewrite <- Z at 2; exact P18]. }
    apply Qmult_le_compat_r; [|apply q_nonneg].
    pose proof (since_triangle ((cfg_acc c + x) mod 2 ^ 128) (cfg_acc c) (last_stake d)) as T.
    pose proof (since_advance (cfg_acc c) x) as A.
    apply Qle_trans with (q (since (cfg_acc c) (last_stake d) + x)); [apply q_le; lia|].
    rewrite q_add. apply Qplus_le_r. rewrite <- q_mul. apply q_floor. lia.
Qed.
Lemma due_lower w ck c d : in_range ck w c d -> (credit c d + fair w ck c d <= due w ck c d + q (effective d) / q (10 ^ 18))%Q.
Proof.
  unfold in_range, due, credit, fair, acc_now. set (l := lam (get w ck) - cfg_last c). intros R. destruct (N.eqb_spec (cfg_effective c) 0) as [->|NZ].
  - change (q 0) with 0%Q. unfold Qdiv at 2. change (/ 0)%Q with 0%Q. rewrite Qmult_0_r. apply Qplus_le_r.
    apply Qle_shift_div_l; [apply q_pos; reflexivity|]. rewrite Qmult_0_l. apply q_nonneg.
  - set (x := l * 10 ^ 18 / cfg_effective c) in *. assert (0 < q (10 ^ 18))%Q as P18 by (apply q_pos; reflexivity).
    rewrite (since_exact _ _ _ R).
    assert (q (since (cfg_acc c) (last_stake d) + x) * q (effective d) / q (10 ^ 18) + q (effective d) / q (10 ^ 18)
      == (q (since (cfg_acc c) (last_stake d) + x) + 1) * q (effective d) / q (10 ^ 18))%Q as ->.
    { field. intros Z. apply (Qlt_irrefl 0). rewrite <- Z at 2. exact P18. }
    apply Qle_shift_div_l; [exact P18|].
    assert ((q (since (cfg_acc c) (last_stake d)) * q (effective d) / q (10 ^ 18) + q l * q (effective d) / q (cfg_effective c)) * q (10 ^ 18)
      == (q (since (cfg_acc c) (last_stake d)) + q l * q (10 ^ 18) / q (cfg_effective c)) * q (effective d))%Q as ->.
    { field. split; intros Z; [apply (Qlt_irrefl 0); rewrite <- Z at 2; apply q_pos; lia|apply (Qlt_irrefl 0); rewrite <- Z at 2; exact P18]. }
    apply Qmult_le_compat_r; [|apply q_nonneg].
    rewrite q_add, <- Qplus_assoc. apply Qplus_le_r. rewrite <- q_mul. apply q_floor. lia.
Qed.
Lemma claim_floor w ck c d : (q (stake_claim w ck c d) <= due w ck c d)%Q /\ (due w ck c d <= q (stake_claim w ck c d) + 1)%Q.
Proof.
  unfold stake_claim, due. set (x := since _ _). rewrite <- q_mul. apply q_floor. reflexivity.
Qed.

(** ** Histories *)
Lemma other_step e ck k w ev w' c d : env_ok e -> reachable e w -> step e w ev w' ->
  (forall cx c, ev = Do cx c -> ~ distributes ck c) -> config_at e w ck c -> stake_of e w ck k = Some d ->
  exists c' d', config_at e w' ck c' /\ stake_of e w' ck k = Some d' /\ credit c' d' = credit c d.
Proof.
  intros OK R ST ND C S. destruct ST as [w cx cl w' WC CL RUN|w w' RL].
  - specialize (ND cx cl eq_refl). rewrite distributes_syncs in ND. destruct (N.eq_dec (call_config cl) ck) as [<-|NE].
    + destruct (syncs cl) eqn:Y; [exfalso; auto|]. pose proof (i_sane _ _ (inv_reachable _ _ OK R)) as SA.
      destruct (run_quiet _ _ _ _ _ _ OK SA RUN Y C) as (c' & C' & A & _). apply run_ok in RUN as (_ & D & _).
      destruct (quiet_stake _ _ _ _ _ _ _ OK SA D Y S) as (d' & S' & L & E). exists c', d'. repeat (split; [assumption|]).
      unfold credit. now rewrite A, L, E.
    + destruct (isolated_run _ _ _ _ _ ck OK R RUN (not_eq_sym NE)) as (SO & _ & CI & _). exists c, d.
      split; [now apply CI|]. split; [now rewrite SO|reflexivity].
  - exists c, d. split; [|split; [now rewrite (rely_stake_of _ _ _ RL)|reflexivity]]. destruct C as [O D].
    destruct (rely_kept _ _ _ ck RL O) as (O' & D' & _); [intros [m Z]; congruence|]. split; congruence.
Qed.
Lemma ledger_reachable e ck k ok w0 w f p r : reachable e w0 -> ledger e ck k ok w0 w f p r -> reachable e w.
Proof. intros R. induction 1; auto; eapply reachable_step; eauto. Qed.
Lemma ledger_credit e ck k ok w0 w f p r c0 d0 : env_ok e -> reachable e w0 -> config_at e w0 ck c0 -> stake_of e w0 ck k = Some d0 ->
  ledger e ck k ok w0 w f p r -> exists c d, config_at e w ck c /\ stake_of e w ck k = Some d /\
    (q p + credit c d <= credit c0 d0 + f)%Q /\
    ((forall w c d, ok w c d -> in_range ck w c d) -> credit c0 d0 + f <= q p + credit c d + r)%Q.
Proof.
  intros OK R0 C0 S0 LD.
  induction LD as [|w f p r ev w' LD IH ST ND|w f p r cx c w' cf d LD IH ST DI NK NS C S O|w f p r cx c w' cf d LD IH ST DI NK NS C S O].
  - exists c0, d0. split; [exact C0|]. split; [exact S0|]. change (q 0) with 0%Q. split.
    + rewrite Qplus_0_l, Qplus_0_r. apply Qle_refl.
    + intros _. rewrite Qplus_0_l, !Qplus_0_r. apply Qle_refl.
  - destruct IH as (c & d & C & S & U & L). pose proof (ledger_reachable _ _ _ _ _ _ _ _ _ R0 LD) as R.
    destruct (other_step _ _ _ _ _ _ _ _ OK R ST ND C S) as (c' & d' & C' & S' & E). exists c', d'. rewrite E. auto.
  - destruct IH as (c1 & d1 & C1 & S1 & U & L). pose proof (ledger_reachable _ _ _ _ _ _ _ _ _ R0 LD) as R.
    assert (c1 = cf) as -> by (destruct C, C1; congruence). assert (d1 = d) as -> by congruence. clear C1 S1.
    inversion ST as [? ? ? ? WC CL RUN|]; subst. pose proof (inv_reachable _ _ OK R) as I.
    pose proof (proj1 (distributes_syncs _ _) DI) as [Y CC].
    destruct (run_settles _ _ _ _ _ OK (i_sane _ _ I) (i_wf _ _ I) RUN Y ltac:(congruence)) as (c1 & cf' & C1 & C' & A & _).
    rewrite CC in *. assert (c1 = cf) as -> by (destruct C, C1; congruence).
    destruct (run_cleared _ _ _ _ _ _ OK R RUN DI NK) as [_ K]. exists cf', d. split; [exact C'|]. split; [now rewrite K|].
    assert (credit cf' d == due w ck cf d)%Q as E by (unfold credit, due; rewrite A; reflexivity). rewrite E.
    pose proof (due_upper w ck cf d) as DU. split.
    + rewrite Qplus_assoc. eapply Qle_trans; [apply Qplus_le_r; exact DU|]. rewrite Qplus_assoc. apply Qplus_le_l. exact U.
    + intros IR. specialize (L IR). pose proof (due_lower w ck cf d (IR _ _ _ O)) as DL.
      set (x := (q (effective d) / q (10 ^ 18))%Q) in *. set (y := fair w ck cf d) in *. set (z := due w ck cf d) in *.
      set (u := credit cf d) in *. set (v := credit c0 d0) in *. clearbody x y z u v. clear - L DL. lra.
  - destruct IH as (c1 & d1 & C1 & S1 & U & L). pose proof (ledger_reachable _ _ _ _ _ _ _ _ _ R0 LD) as R.
    assert (c1 = cf) as -> by (destruct C, C1; congruence). assert (d1 = d) as -> by congruence. clear C1 S1.
    inversion ST as [? ? ? ? WC CL RUN|]; subst. pose proof (inv_reachable _ _ OK R) as I.
    pose proof (proj1 (distributes_syncs _ _) DI) as [Y CC].
    destruct (run_settles _ _ _ _ _ OK (i_sane _ _ I) (i_wf _ _ I) RUN Y ltac:(congruence)) as (c1 & cf' & C1 & C' & A & _).
    rewrite CC in *. assert (c1 = cf) as -> by (destruct C, C1; congruence).
    destruct (run_cleared _ _ _ _ _ _ OK R RUN DI NK) as [K _]. destruct (K k NS) as (d' & S' & LS).
    exists cf', d'. split; [exact C'|]. split; [exact S'|].
    assert (credit cf' d' == 0)%Q as E.
    { unfold credit. rewrite LS, A, <- (acc_at_eq _ _ _ (proj2 C)), since_same. change (q 0) with 0%Q. unfold Qdiv. now rewrite !Qmult_0_l. }
    rewrite E, q_add. pose proof (due_upper w ck cf d) as DU. pose proof (claim_floor w ck cf d) as [F1 F2]. split.
    + set (y := fair w ck cf d) in *. set (z := due w ck cf d) in *. set (t := q (stake_claim w ck cf d)) in *.
      set (u := credit cf d) in *. set (v := credit c0 d0) in *. clearbody y z u v t. clear - U DU F1. lra.
    + intros IR. specialize (L IR). pose proof (due_lower w ck cf d (IR _ _ _ O)) as DL.
      set (x := (q (effective d) / q (10 ^ 18))%Q) in *. set (y := fair w ck cf d) in *. set (z := due w ck cf d) in *.
      set (t := q (stake_claim w ck cf d)) in *.
      set (u := credit cf d) in *. set (v := credit c0 d0) in *. clearbody x y z u v t. clear - L DL F2. lra.
Qed.

(** What an account has been paid in staking rewards over a stretch of history, and
    would be paid now, is never more than what it was owed at the start and its
    parts of the lamports that arrived; and less only by the rounding. *)
Theorem C74_at_most_fair e ck k ok w0 w f p r c0 d0 c d : env_ok e -> reachable e w0 ->
  config_at e w0 ck c0 -> stake_of e w0 ck k = Some d0 -> ledger e ck k ok w0 w f p r ->
  config_at e w ck c -> stake_of e w ck k = Some d ->
  (q (p + stake_claim w ck c d) <= credit c0 d0 + (f + fair w ck c d))%Q.
Proof.
  intros OK R C0 S0 LD C S. destruct (ledger_credit _ _ _ _ _ _ _ _ _ _ _ OK R C0 S0 LD) as (c1 & d1 & C1 & S1 & U & _).
  assert (c1 = c) as -> by (destruct C, C1; congruence). assert (d1 = d) as -> by congruence. rewrite q_add.
  pose proof (due_upper w ck c d) as DU. pose proof (claim_floor w ck c d) as [F1 _].
  set (y := fair w ck c d) in *. set (z := due w ck c d) in *. set (t := q (stake_claim w ck c d)) in *.
  set (u := credit c d) in *. set (v := credit c0 d0) in *. clearbody y z u v t. clear - U DU F1. lra.
Qed.
Print Assumptions C74_at_most_fair.
Theorem C74_at_least_fair e ck k w0 w f p r c0 d0 c d : env_ok e -> reachable e w0 ->
  config_at e w0 ck c0 -> stake_of e w0 ck k = Some d0 -> ledger e ck k (in_range ck) w0 w f p r ->
  config_at e w ck c -> stake_of e w ck k = Some d -> in_range ck w c d ->
  (credit c0 d0 + (f + fair w ck c d) <= q (p + stake_claim w ck c d) + (r + q (effective d) / q (10 ^ 18) + 1))%Q.
Proof.
  intros OK R C0 S0 LD C S IR. destruct (ledger_credit _ _ _ _ _ _ _ _ _ _ _ OK R C0 S0 LD) as (c1 & d1 & C1 & S1 & _ & L).
  specialize (L (fun w c d H => H)).
  assert (c1 = c) as -> by (destruct C, C1; congruence). assert (d1 = d) as -> by congruence. rewrite q_add.
  pose proof (due_lower w ck c d IR) as DL. pose proof (claim_floor w ck c d) as [_ F2].
  set (x := (q (effective d) / q (10 ^ 18))%Q) in *. set (y := fair w ck c d) in *. set (z := due w ck c d) in *.
  set (t := q (stake_claim w ck c d)) in *.
  set (u := credit c d) in *. set (v := credit c0 d0) in *. clearbody x y z u v t. clear - L DL F2. lra.
Qed.
Print Assumptions C74_at_least_fair.
(** Over its whole life: nothing is owed to a stake account just created. *)
Theorem C74_lifetime e cx w0 c w1 ck k ok w f p r cf d : env_ok e -> reachable e w0 -> step e w0 (Do cx c) w1 ->
  (exists a, c = CInitializeValidatorStake a /\ ck = iv_config a /\ k = iv_stake a) \/
  (exists a, c = CInitializeSolStakerStake a /\ ck = is_config a /\ k = is_stake a) ->
  ledger e ck k ok w1 w f p r -> config_at e w ck cf -> stake_of e w ck k = Some d ->
  (q (p + stake_claim w ck cf d) <= f + fair w ck cf d)%Q.
Proof.
  intros OK R ST CC LD C S. pose proof (reachable_step _ _ _ _ R ST) as R1. inversion ST as [? ? ? ? WC CL RUN|]; subst.
  apply run_ok in RUN as (_ & D & _). pose proof (i_sane _ _ (inv_reachable _ _ OK R)) as SA.
  assert (exists c1 d1, config_at e w1 ck c1 /\ stake_of e w1 ck k = Some d1 /\ effective d1 = 0) as (c1 & d1 & C1 & S1 & E1).
  { destruct CC as [(a & -> & -> & ->)|(a & -> & -> & ->)]; inversion D; subst.
    - destruct (stake_of_created_val _ _ _ _ _ OK ltac:(eassumption)) as ((d0 & SD & Z1 & Z2 & O) & _).
      match goal with H : val_created _ _ _ _ _ |- _ => destruct H end.
      exists c, d0. split; [|auto]. split; [rewrite Ho; destruct (_ =? _); auto|].
      rewrite Hd. destruct (N.eqb_spec (iv_stake a) (iv_config a)) as [E|]; auto. rewrite E in Hsd. congruence.
    - destruct (stake_of_created_sol _ _ _ _ _ OK ltac:(eassumption)) as ((d0 & SD & Z1 & Z2 & O) & _).
      match goal with H : sol_created _ _ _ _ _ |- _ => destruct H end.
      exists c, d0. split; [|auto]. split; [rewrite Ho; destruct (_ =? _); auto|].
      rewrite Hd. destruct (N.eqb_spec (is_val a) (is_config a)) as [E|]; [rewrite E in Hv; congruence|].
      destruct (N.eqb_spec (is_stake a) (is_config a)) as [E|]; auto. rewrite E in Hsd. congruence. }
  pose proof (C74_at_most_fair _ _ _ _ _ _ _ _ _ _ _ _ _ OK R1 C1 S1 LD C S) as B.
  assert (credit c1 d1 == 0)%Q as Z by (unfold credit; rewrite E1; change (q 0) with 0%Q; unfold Qdiv; now rewrite Qmult_0_r, Qmult_0_l).
  now rewrite Z, Qplus_0_l in B.
Qed.
Print Assumptions C74_lifetime.
(* Bob's stake of 1300 effective among 1800: after a million lamports arrive its harvest pays 722222; after
   another 777777 a harvest by the validator distributes 561727.8 for it, which Bob is then owed. *)
Definition share_story : list act := setup ++
  [ Pay carol kcfg 1000000; harvest_sol nat1 bob vote1 alice vote1 alice None (View vote1 bob 1000);
    Pay carol kcfg 777777; harvest_val vote1 alice ].
Definition cdel (w : world) : delegation := s_del (sol_of w ksol1).
Example C74_case : let w0 := at_end setup in let w := at_end share_story in
  reachable denv w0 /\ config_at denv w0 kcfg (cfg_of w0 kcfg) /\ stake_of denv w0 kcfg ksol1 = Some (cdel w0) /\
  (exists f r, ledger denv kcfg ksol1 (in_range kcfg) w0 w f 722222 r /\
     (f == q 1777777 * q 1300 / q 1800)%Q /\ (r == 1 + 2 * (q 1300 / q (10 ^ 18)))%Q) /\
  config_at denv w kcfg (cfg_of w kcfg) /\ stake_of denv w kcfg ksol1 = Some (cdel w) /\
  in_range kcfg w (cfg_of w kcfg) (cdel w) /\ stake_claim w kcfg (cfg_of w kcfg) (cdel w) = 561727.
Proof.
  cbv zeta. set (w0 := at_end setup). set (w1 := at_end (setup ++ [Pay carol kcfg 1000000])).
  set (w2 := at_end (firstn 8 share_story)). set (w3 := at_end (firstn 9 share_story)). set (w4 := at_end share_story).
  split; [apply at_end_reachable; vm_compute; reflexivity|]. split; [split; vm_compute; reflexivity|].
  split; [vm_compute; reflexivity|].
  split; [|split; [split; vm_compute; reflexivity|split; [vm_compute; reflexivity|split; vm_compute; reflexivity]]].
  do 2 eexists. split; [|split].
  - eapply (ledger_distribute _ _ _ _ _ w3 _ _ _ _ _ w4 (cfg_of w3 kcfg) (cdel w3)).
    + eapply (ledger_other _ _ _ _ _ w2).
      * change 722222 with (0 + 722222). replace 722222 with (stake_claim w1 kcfg (cfg_of w1 kcfg) (cdel w1)) by (vm_compute; reflexivity).
        eapply (ledger_settle _ _ _ _ _ w1 _ _ _ _ _ w2 (cfg_of w1 kcfg) (cdel w1)).
        -- eapply (ledger_other _ _ _ _ _ w0); [apply ledger_start|apply (at_end_step setup (Pay carol kcfg 1000000)); vm_compute; reflexivity|discriminate].
        -- apply (at_end_step (firstn 7 share_story) (harvest_sol nat1 bob vote1 alice vote1 alice None (View vote1 bob 1000))). vm_compute. reflexivity.
        -- reflexivity.
        -- discriminate.
        -- split; [reflexivity|]. exists (sol_of w1 ksol1), (View vote1 bob 1000). split; [split; vm_compute; reflexivity|].
           split; [reflexivity|]. vm_compute. reflexivity.
        -- split; vm_compute; reflexivity.
        -- vm_compute. reflexivity.
        -- vm_compute. reflexivity.
      * apply (at_end_step (firstn 8 share_story) (Pay carol kcfg 777777)). vm_compute. reflexivity.
      * discriminate.
    + apply (at_end_step (firstn 9 share_story) (harvest_val vote1 alice)). vm_compute. reflexivity.
    + reflexivity.
    + discriminate.
    + intros [_ E]. revert E. vm_compute. discriminate.
    + split; vm_compute; reflexivity.
    + vm_compute. reflexivity.
    + vm_compute. reflexivity.
  - vm_compute. reflexivity.
  - vm_compute. reflexivity.
Qed.
(* From its creation until the first million lamports have arrived. *)
Example C74_lifetime_case : let w1 := at_end (firstn 4 setup) in let w := at_end (firstn 7 share_story) in
  reachable denv (at_end (firstn 3 setup)) /\
  (exists cx a, step denv (at_end (firstn 3 setup)) (Do cx (CInitializeSolStakerStake a)) w1 /\ is_config a = kcfg /\ is_stake a = ksol1) /\
  (exists f r, ledger denv kcfg ksol1 (in_range kcfg) w1 w f 0 r) /\
  config_at denv w kcfg (cfg_of w kcfg) /\ stake_of denv w kcfg ksol1 = Some (cdel w) /\
  stake_claim w kcfg (cfg_of w kcfg) (cdel w) = 722222 /\ (fair w kcfg (cfg_of w kcfg) (cdel w) == q 1000000 * q 1300 / q 1800)%Q.
Proof.
  cbv zeta. set (w1 := at_end (firstn 4 setup)). set (w2 := at_end (firstn 5 setup)). set (w3 := at_end setup).
  set (w4 := at_end (firstn 7 share_story)).
  split; [apply at_end_reachable; vm_compute; reflexivity|].
  split; [|split; [|split; [split; vm_compute; reflexivity|split; [vm_compute; reflexivity|split; vm_compute; reflexivity]]]].
  - do 2 eexists. split; [|split].
    + apply (at_end_step (firstn 3 setup) (init_sol nat1 vote1 bob 1000)). vm_compute. reflexivity.
    + reflexivity.
    + reflexivity.
  - do 2 eexists. eapply (ledger_other _ _ _ _ _ w3).
    + replace 0 with (0 + stake_claim w2 kcfg (cfg_of w2 kcfg) (cdel w2)) by (vm_compute; reflexivity).
      eapply (ledger_settle _ _ _ _ _ w2 _ _ _ _ _ w3 (cfg_of w2 kcfg) (cdel w2)).
      * eapply (ledger_distribute _ _ _ _ _ w1 _ _ _ _ _ w2 (cfg_of w1 kcfg) (cdel w1)); [apply ledger_start| | | | | | |].
        -- apply (at_end_step (firstn 4 setup) (stake_val vote1 alice atok alice 500)). vm_compute. reflexivity.
        -- reflexivity.
        -- discriminate.
        -- intros [_ E]. revert E. vm_compute. discriminate.
        -- split; vm_compute; reflexivity.
        -- vm_compute. reflexivity.
        -- vm_compute. reflexivity.
      * apply (at_end_step (firstn 5 setup) (stake_sol nat1 bob btok bob 2000 0)). vm_compute. reflexivity.
      * reflexivity.
      * discriminate.
      * split; reflexivity.
      * split; vm_compute; reflexivity.
      * vm_compute. reflexivity.
      * vm_compute. reflexivity.
    + apply (at_end_step setup (Pay carol kcfg 1000000)). vm_compute. reflexivity.
    + discriminate.
Qed.
