(** C91: the staking rewards of a config all reach its stake accounts, but for rounding. *)
From Verif Require Import Base Types Layout Instr Math External Processor Runtime History Spec SpecReward SpecShare SpecDust
  WorldLemmas Effects Handlers Evolve Sane Wf Totals Arith Nets Caps Stakers Deposits Inv Life Tokens Gov Flow
  Rewards Collect Pays Progress Live Demo PropState PropTokens PropAuth PropReward SpecSolvency Solvency PropShare PropSolvency.
Local Open Scope N_scope.

Lemma sum_over_bounds f g ks u : (forall k, In k ks -> g k < f k + u) -> sum_over g ks <= sum_over f ks + u * N.of_nat (length ks).
Proof.
  induction ks as [|k ks IH]; intros H; cbn [sum_over length]; [lia|]. specialize (IH (fun k K => H k (or_intror K))).
  specialize (H k (or_introl eq_refl)). lia.
Qed.
Lemma sum_over_scale x f ks : sum_over (fun k => x * f k) ks = x * sum_over f ks.
Proof. induction ks as [|k ks IH]; cbn [sum_over]; [lia|]. rewrite IH. lia. Qed.
Lemma sum_over_le f g ks : (forall k, In k ks -> f k <= g k) -> sum_over f ks <= sum_over g ks.
Proof.
  induction ks as [|k ks IH]; intros H; cbn [sum_over]; [lia|]. specialize (IH (fun k K => H k (or_intror K))).
  specialize (H k (or_introl eq_refl)). lia.
Qed.

(** What they are owed once everything is distributed. *)
Definition dues (e : env) (w : world) (ck : pubkey) (c : config) : N :=
  sum_of e w ck (fun d => since (acc_now (lam (get w ck)) c) (last_stake d) * effective d).
Lemma dues_upper e w ck c : config_at e w ck c -> effsum e w -> dues e w ck c <= credits e w ck c + 10 ^ 18 * waiting w ck c.
Proof.
  intros C E. specialize (E _ _ C). unfold dues, credits, waiting, acc_now. destruct (N.eqb_spec (cfg_effective c) 0) as [|NZ]; [lia|].
  set (l := lam (get w ck) - cfg_last c). set (x := l * 10 ^ 18 / cfg_effective c).
  assert (x * cfg_effective c <= l * 10 ^ 18) as X by (unfold x; rewrite N.mul_comm; apply N.mul_div_le; auto).
  transitivity (credits e w ck c + x * cfg_effective c); [|unfold credits; lia].
  rewrite E. unfold credits. rewrite <- sum_of_scale, <- sum_of_add. apply sum_of_mono. intros d.
  pose proof (since_triangle ((cfg_acc c + x) mod 2 ^ 128) (cfg_acc c) (last_stake d)) as T.
  pose proof (since_advance (cfg_acc c) x) as A.
  set (s1 := since _ _) in *. set (s2 := since _ _) in *. set (s3 := since (cfg_acc c) (last_stake d)) in *.
  clearbody s1 s2 s3. nia.
Qed.
Lemma dues_lower e w ck c : config_at e w ck c -> effsum e w -> (forall k d, stake_of e w ck k = Some d -> in_range ck w c d) ->
  credits e w ck c + 10 ^ 18 * waiting w ck c <= dues e w ck c + cfg_effective c.
Proof.
  intros C E IR. specialize (E _ _ C). unfold dues, credits, waiting, acc_now. destruct (N.eqb_spec (cfg_effective c) 0) as [|NZ]; [lia|].
  set (l := lam (get w ck) - cfg_last c). set (x := l * 10 ^ 18 / cfg_effective c).
  assert (l * 10 ^ 18 <= x * cfg_effective c + cfg_effective c) as X.
  { unfold x. pose proof (N.mul_succ_div_gt (l * 10 ^ 18) (cfg_effective c) NZ) as G. set (y := l * 10 ^ 18 / cfg_effective c) in *. clearbody y. lia. }
  assert (sum_of e w ck (fun d => since ((cfg_acc c + x) mod 2 ^ 128) (last_stake d) * effective d)
    = credits e w ck c + x * cfg_effective c) as ->; [|unfold credits; lia].
  rewrite E. unfold credits. rewrite <- sum_of_scale, <- sum_of_add. apply sum_of_same. intros k d S.
  rewrite since_exact by exact (IR k d S). lia.
Qed.
(** Distribution and settlement of the accounts [ks]. *)
Lemma credits_cleared e w w' ck c c' ks : config_at e w ck c -> cleared_stake e ck ks w w' -> cfg_acc c' = acc_now (lam (get w ck)) c ->
  10 ^ 18 * sum_over (claim_of e w ck c) ks + credits e w' ck c' <= dues e w ck c /\
  dues e w ck c <= 10 ^ 18 * sum_over (claim_of e w ck c) ks + credits e w' ck c' + 10 ^ 18 * N.of_nat (length ks).
Proof.
  intros C [ND CI CO] A. set (g := fun d => since (acc_now (lam (get w ck)) c) (last_stake d) * effective d).
  pose proof (sum_of_list e w w' ck g ks ND CO) as S.
  assert (sum_over (fun k => value g (stake_of e w' ck k)) ks = 0) as Z.
  { assert (forall l, (forall k, In k l -> In k ks) -> sum_over (fun k => value g (stake_of e w' ck k)) l = 0) as Y; [|apply Y; auto].
    induction l as [|k l IH]; intros SB; cbn [sum_over]; [auto|]. rewrite IH by (intros; apply SB; now right).
    destruct (CI k (SB k (or_introl eq_refl))) as (d' & S' & L). rewrite S'. cbn [value]. unfold g.
    rewrite L, (acc_at_eq _ _ _ (proj2 C)), since_same. lia. }
  rewrite Z, N.add_0_r in S. assert (credits e w' ck c' = sum_of e w' ck g) as -> by (unfold credits; rewrite A; reflexivity).
  change (dues e w ck c) with (sum_of e w ck g). rewrite <- S, <- sum_over_scale.
  assert (forall k, 10 ^ 18 * claim_of e w ck c k <= value g (stake_of e w ck k) /\
    value g (stake_of e w ck k) < 10 ^ 18 * claim_of e w ck c k + 10 ^ 18) as B.
  { intros k. unfold claim_of. destruct (stake_of e w ck k) as [d|]; cbn [value]; [|lia]. unfold stake_claim, g.
    set (y := since _ _ * _). clearbody y. pose proof (N.mul_div_le y (10 ^ 18) ltac:(lia)). pose proof (N.mul_succ_div_gt y (10 ^ 18) ltac:(lia)). lia. }
  split.
  - rewrite N.add_comm. apply N.add_le_mono_l. apply sum_over_le. intros k _. apply B.
  - pose proof (sum_over_bounds (fun k => 10 ^ 18 * claim_of e w ck c k) (fun k => value g (stake_of e w ck k)) ks (10 ^ 18) (fun k _ => proj2 (B k))). lia.
Qed.
(** Other events leave the credits alone. *)
Lemma credits_other e ck w ev w' c : env_ok e -> reachable e w -> step e w ev w' ->
  (forall cx c, ev = Do cx c -> ~ distributes ck c) -> config_at e w ck c ->
  exists c', config_at e w' ck c' /\ credits e w' ck c' = credits e w ck c.
Proof.
  intros OK R ST ND C. destruct ST as [w cx cl w' WC CL RUN|w w' RL].
  - specialize (ND cx cl eq_refl). rewrite distributes_syncs in ND. destruct (N.eq_dec (call_config cl) ck) as [<-|NE].
    + destruct (syncs cl) eqn:Y; [exfalso; auto|]. pose proof (i_sane _ _ (inv_reachable _ _ OK R)) as SA.
      destruct (run_quiet _ _ _ _ _ _ OK SA RUN Y C) as (c' & C' & A & _). apply run_ok in RUN as (_ & D & _).
      exists c'. split; [exact C'|]. unfold credits. rewrite A.
      destruct D; try discriminate; cbn [call_config].
      * apply sum_of_eq. eapply stake_of_created_config; eauto.
      * destruct (stake_of_created_val _ _ _ _ _ OK H) as ((d0 & SD & Z1 & Z2 & O) & RR).
        eapply sum_of_created; eauto. cbv beta. rewrite Z2. lia.
      * destruct H. subst w'. apply sum_of_eq. intros k. unfold stake_of, stake_in. ws.
        destruct (N.eqb_spec (sa_account a) k) as [<-|]; auto. rewrite Hc. now destruct (_ =? _).
      * destruct H. subst w'. apply sum_of_eq. intros k. unfold stake_of, stake_in. ws.
        destruct (N.eqb_spec (uc_config a) k) as [<-|]; auto. rewrite Hc. now destruct (_ =? _).
      * destruct (stake_of_created_sol _ _ _ _ _ OK H) as ((d0 & SD & Z1 & Z2 & O) & RR).
        eapply sum_of_created; eauto. cbv beta. rewrite Z2. lia.
      * destruct H. subst w'. apply sum_of_ext. intros k. unfold put_del, stake_of, stake_in. ws.
        destruct (N.eqb_spec (sy_stake a) k) as [<-|]; auto. rewrite Hv. cbn. repeat (destruct (_ =? _)); reflexivity.
    + destruct (isolated_run _ _ _ _ _ ck OK R RUN (not_eq_sym NE)) as (SO & _ & CI & _). exists c.
      split; [now apply CI|]. now apply sum_of_eq.
  - exists c. split; [|apply sum_of_eq; intros k; now rewrite (rely_stake_of _ _ _ RL)]. destruct C as [O D].
    destruct (rely_kept _ _ _ ck RL O) as (O' & D' & _); [intros [z Z]; congruence|]. split; congruence.
Qed.
Lemma books_reachable e ck ok w0 w a p t m : reachable e w0 -> books e ck ok w0 w a p t m -> reachable e w.
Proof. intros R. induction 1; auto; eapply reachable_step; eauto. Qed.
Lemma books_credits e ck ok w0 w a p t m c0 : env_ok e -> reachable e w0 -> config_at e w0 ck c0 -> books e ck ok w0 w a p t m ->
  exists c, config_at e w ck c /\
    10 ^ 18 * p + credits e w ck c <= credits e w0 ck c0 + 10 ^ 18 * a /\
    ((forall w c d, ok w c d -> in_range ck w c d) ->
     credits e w0 ck c0 + 10 ^ 18 * a <= 10 ^ 18 * p + credits e w ck c + t + 10 ^ 18 * m).
Proof.
  intros OK R0 C0 B.
  induction B as [|w a p t m ev w' B IH ST ND|w a p t m cx c w' cf ks B IH ST DI NK C NDK IFF O].
  - exists c0. split; [exact C0|]. split; intros; lia.
  - destruct IH as (c & C & U & L). pose proof (books_reachable _ _ _ _ _ _ _ _ _ R0 B) as R.
    destruct (credits_other _ _ _ _ _ _ OK R ST ND C) as (c' & C' & E). exists c'. rewrite E. auto.
  - destruct IH as (c1 & C1 & U & L). pose proof (books_reachable _ _ _ _ _ _ _ _ _ R0 B) as R.
    assert (c1 = cf) as -> by (destruct C, C1; congruence). clear C1.
    inversion ST as [? ? ? ? WC CL RUN|]; subst. pose proof (inv_reachable _ _ OK R) as I.
    pose proof (proj1 (distributes_syncs _ _) DI) as [Y CC].
    destruct (run_settles _ _ _ _ _ OK (i_sane _ _ I) (i_wf _ _ I) RUN Y ltac:(congruence)) as (c1 & cf' & C1 & C' & A & _).
    rewrite CC in *. assert (c1 = cf) as -> by (destruct C, C1; congruence).
    destruct (run_cleared _ _ _ _ _ _ OK R RUN DI NK) as [KI KO].
    assert (cleared_stake e ck ks w w') as CS.
    { split; [now apply NoDup_ListNoDup|intros x X; apply KI; now apply IFF|intros x X; apply KO; now rewrite <- IFF]. }
    destruct (credits_cleared _ _ _ _ _ _ _ C CS A) as [X1 X2]. exists cf'. split; [exact C'|].
    pose proof (dues_upper _ _ _ _ C (i_eff _ _ I)) as DU. split.
    + clear - U X1 DU. lia.
    + intros IR. specialize (L IR). pose proof (dues_lower _ _ _ _ C (i_eff _ _ I) (fun k d S => IR _ _ _ (O k d S))) as DL.
      clear - L X2 DL. lia.
Qed.
Lemma claims_dues e w ck c : 10 ^ 18 * stake_claims e w ck c <= dues e w ck c /\
  dues e w ck c <= 10 ^ 18 * (stake_claims e w ck c + stakers e w ck).
Proof.
  unfold stake_claims, dues, stakers. rewrite <- sum_of_add, <- !sum_of_scale. split; apply sum_of_mono; intros d; unfold stake_claim;
    set (y := since _ _ * _); clearbody y; pose proof (N.mul_div_le y (10 ^ 18) ltac:(lia));
    pose proof (N.mul_succ_div_gt y (10 ^ 18) ltac:(lia)); lia.
Qed.

(** Over any stretch of history the staking rewards paid to a config's stake accounts,
    and those they can still claim, are never more than what they were owed at the
    start and the lamports that arrived. *)
Theorem C91_no_more e ck ok w0 w a p t m c0 c : env_ok e -> reachable e w0 -> config_at e w0 ck c0 ->
  books e ck ok w0 w a p t m -> config_at e w ck c ->
  10 ^ 18 * (p + stake_claims e w ck c) <= credits e w0 ck c0 + 10 ^ 18 * (a + waiting w ck c).
Proof.
  intros OK R C0 B C. destruct (books_credits _ _ _ _ _ _ _ _ _ _ OK R C0 B) as (c1 & C1 & U & _).
  assert (c1 = c) as -> by (destruct C, C1; congruence).
  pose proof (books_reachable _ _ _ _ _ _ _ _ _ R B) as R1. pose proof (inv_reachable _ _ OK R1) as I.
  pose proof (dues_upper _ _ _ _ C (i_eff _ _ I)) as DU. pose proof (claims_dues e w ck c) as [L _]. clear - U DU L. lia.
Qed.
Print Assumptions C91_no_more.
(** And they are less only by the rounding: one unit of [10^-18] lamports for each
    unit of effective stake in each distribution, and one lamport for each payment. *)
Theorem C91_no_less e ck w0 w a p t m c0 c : env_ok e -> reachable e w0 -> config_at e w0 ck c0 ->
  books e ck (in_range ck) w0 w a p t m -> config_at e w ck c ->
  (forall k d, stake_of e w ck k = Some d -> in_range ck w c d) ->
  credits e w0 ck c0 + 10 ^ 18 * (a + waiting w ck c) <=
    10 ^ 18 * (p + stake_claims e w ck c) + (t + cfg_effective c) + 10 ^ 18 * (m + stakers e w ck).
Proof.
  intros OK R C0 B C IR. destruct (books_credits _ _ _ _ _ _ _ _ _ _ OK R C0 B) as (c1 & C1 & _ & L). specialize (L (fun w c d H => H)).
  assert (c1 = c) as -> by (destruct C, C1; congruence).
  pose proof (books_reachable _ _ _ _ _ _ _ _ _ R B) as R1. pose proof (inv_reachable _ _ OK R1) as I.
  pose proof (dues_lower _ _ _ _ C (i_eff _ _ I) IR) as DL. pose proof (claims_dues e w ck c) as [_ U]. clear - L DL U. lia.
Qed.
Print Assumptions C91_no_less.
(** In lamports, over the whole life of a config. *)
Theorem C91_lifetime e cx i s au cd b sy du w0 w1 w a p t m c : env_ok e -> reachable e w0 ->
  step e w0 (Do cx (CInitializeConfig i s au cd b sy du)) w1 -> let ck := ic_config i in
  books e ck (in_range ck) w1 w a p t m -> config_at e w ck c ->
  (forall k d, stake_of e w ck k = Some d -> in_range ck w c d) ->
  p + stake_claims e w ck c <= a + waiting w ck c /\
  a + waiting w ck c <= p + stake_claims e w ck c + (t + cfg_effective c) / 10 ^ 18 + (m + stakers e w ck).
Proof.
  intros OK R ST ck B C IR. pose proof (reachable_step _ _ _ _ R ST) as R1. inversion ST as [? ? ? ? WC CL RUN|]; subst.
  destruct (created_level _ _ _ _ _ _ _ _ _ _ _ OK R RUN) as (c1 & C1 & L & _). fold ck in C1, L.
  assert (credits e w1 ck c1 = 0) as Z.
  { apply N.le_0_r. rewrite <- L. unfold level, credits, owed. apply sum_of_mono. intros d. unfold owing. lia. }
  pose proof (C91_no_more _ _ _ _ _ _ _ _ _ _ _ OK R1 C1 B C) as U. pose proof (C91_no_less _ _ _ _ _ _ _ _ _ _ OK R1 C1 B C IR) as D.
  rewrite Z in U, D. clear - U D. set (x := t + cfg_effective c) in *. set (y := stake_claims e w ck c) in *.
  set (v := waiting w ck c) in *. set (z := stakers e w ck) in *. clearbody x y v z.
  split; [lia|]. pose proof (N.div_mod x (10 ^ 18) ltac:(lia)). pose proof (N.mod_lt x (10 ^ 18) ltac:(lia)). set (u := x / 10 ^ 18) in *.
  set (n := x mod 10 ^ 18) in *. clearbody u n. lia.
Qed.
Print Assumptions C91_lifetime.
(** Every history in which no keeper payment goes to the config has such books. *)
Theorem C91_every_history e ck w0 w c0 : env_ok e -> reachable e w0 -> config_at e w0 ck c0 -> keeperless e ck w0 w ->
  exists a p t m, books e ck (fun _ _ _ => True) w0 w a p t m.
Proof.
  intros OK R0 C0 P. induction P as [|w ev w' P IH ST NK]; [do 4 eexists; apply books_start|].
  destruct IH as (a & p & t & m & B). destruct (books_credits _ _ _ _ _ _ _ _ _ _ OK R0 C0 B) as (c & C & _).
  pose proof (books_reachable _ _ _ _ _ _ _ _ _ R0 B) as R. pose proof ST as ST0.
  destruct ST as [w cx cl w' WC CL RUN|w w' RL].
  - assert (distributes ck cl \/ ~ distributes ck cl) as [DI|ND].
    { rewrite distributes_syncs. destruct (syncs cl), (N.eq_dec (call_config cl) ck); intuition congruence. }
    + specialize (NK cx cl eq_refl). destruct (run_clears _ _ _ _ _ _ OK R RUN DI NK) as (ks & [NDK _ _] & IFF).
      do 4 eexists. eapply books_distribute; eauto. now apply NoDup_ListNoDup.
    + do 4 eexists. eapply books_other; eauto. intros cx0 c1 [= -> ->]. exact ND.
  - do 4 eexists. eapply books_other; eauto. discriminate.
Qed.
Print Assumptions C91_every_history.

(* The whole life of the example's config: two stakes, a million lamports arrive, Bob harvests 722222,
   777777 more arrive, and the validator harvests 493826; Bob can claim 561727, and two lamports are dust. *)
Definition all_in_range (w : world) : bool :=
  forallb (fun x : N * account => match stake_in denv kcfg (fst x) (snd x) with
    | Some d => since (cfg_acc (cfg_of w kcfg)) (last_stake d) + (lam (get w kcfg) - cfg_last (cfg_of w kcfg)) * 10 ^ 18 / cfg_effective (cfg_of w kcfg) <? 2 ^ 128
    | None => true end) (map_to_list w).
Lemma all_in_range_ok w : all_in_range w = true -> forall k d, stake_of denv w kcfg k = Some d -> in_range kcfg w (cfg_of w kcfg) d.
Proof.
  intros H k d S. unfold all_in_range in H. rewrite forallb_forall in H. unfold stake_of, get in S.
  destruct (w !! k) as [a|] eqn:E; [|discriminate]. simpl in S. apply elem_of_map_to_list, elem_of_list_In in E.
  specialize (H _ E). cbn [fst snd] in H. rewrite S in H. now apply N.ltb_lt.
Qed.
Definition life (n : nat) : world := at_end (firstn n share_story).
Lemma books_go w0 w a p t m cx c w' cf ks a' p' t' m' : books denv kcfg (in_range kcfg) w0 w a p t m -> step denv w (Do cx c) w' ->
  distributes kcfg c -> keeper_in c <> Some kcfg -> config_at denv w kcfg cf ->
  List.NoDup ks -> (forall k, In k ks <-> settles_account denv cx w kcfg k c) ->
  (forall k d, stake_of denv w kcfg k = Some d -> in_range kcfg w cf d) ->
  a + waiting w kcfg cf = a' -> p + sum_over (claim_of denv w kcfg cf) ks = p' -> t + cfg_effective cf = t' -> m + N.of_nat (length ks) = m' ->
  books denv kcfg (in_range kcfg) w0 w' a' p' t' m'.
Proof. intros. subst. eapply books_distribute; eauto. Qed.
Ltac goes := lazymatch goal with
  | |- config_at _ _ _ _ => split; vm_compute; reflexivity
  | |- List.NoDup _ => constructor; [intros []|constructor]
  | |- _ => apply all_in_range_ok; vm_compute; reflexivity
  end.
Example C91_case : let w := life 10 in
  (exists cx a, step denv world0 (Do cx (CInitializeConfig a slasher gov 1000 5000 100 docs)) (life 1) /\ ic_config a = kcfg) /\
  books denv kcfg (in_range kcfg) (life 1) w 1777777 1216048 4100 4 /\ keeperless denv kcfg (life 1) w /\
  config_at denv (life 1) kcfg (cfg_of (life 1) kcfg) /\ config_at denv w kcfg (cfg_of w kcfg) /\
  (forall k d, stake_of denv w kcfg k = Some d -> in_range kcfg w (cfg_of w kcfg) d) /\
  stake_claims denv w kcfg (cfg_of w kcfg) = 561727 /\ stakers denv w kcfg = 3 /\ waiting w kcfg (cfg_of w kcfg) = 0.
Proof.
  cbv zeta. split; [|split; [|split; [|split; [goes|split; [goes|split; [goes|split; [vm_compute; reflexivity|split; vm_compute; reflexivity]]]]]]].
  - exact first_step.
  - assert (books denv kcfg (in_range kcfg) (life 1) (life 5) 0 0 0 1) as B5.
    { eapply (books_go _ (life 4) 0 0 0 0 _ _ _ (cfg_of (life 4) kcfg) [kval1]).
      - eapply (books_other _ _ _ _ (life 3)); [eapply (books_other _ _ _ _ (life 2)); [eapply (books_other _ _ _ _ (life 1)); [apply books_start| |]| |]| |].
        + apply (at_end_step (firstn 1 share_story) (init_val vote1 alice)). vm_compute. reflexivity.
        + intros ? ? [= <- <-] [].
        + apply (at_end_step (firstn 2 share_story) (init_val vote2 dave)). vm_compute. reflexivity.
        + intros ? ? [= <- <-] [].
        + apply (at_end_step (firstn 3 share_story) (init_sol nat1 vote1 bob 1000)). vm_compute. reflexivity.
        + intros ? ? [= <- <-] [].
      - apply (at_end_step (firstn 4 share_story) (stake_val vote1 alice atok alice 500)). vm_compute. reflexivity.
      - reflexivity.
      - discriminate.
      - goes.
      - goes.
      - unfold settles_account. simpl. intuition.
      - goes.
      - vm_compute. reflexivity.
      - vm_compute. reflexivity.
      - vm_compute. reflexivity.
      - vm_compute. reflexivity. }
    assert (books denv kcfg (in_range kcfg) (life 1) (life 6) 0 0 500 2) as B6.
    { eapply (books_go _ (life 5) 0 0 0 1 _ _ _ (cfg_of (life 5) kcfg) [ksol1]).
      - exact B5.
      - apply (at_end_step (firstn 5 share_story) (stake_sol nat1 bob btok bob 2000 0)). vm_compute. reflexivity.
      - reflexivity.
      - discriminate.
      - goes.
      - goes.
      - unfold settles_account. simpl. intuition.
      - goes.
      - vm_compute. reflexivity.
      - vm_compute. reflexivity.
      - vm_compute. reflexivity.
      - vm_compute. reflexivity. }
    assert (books denv kcfg (in_range kcfg) (life 1) (life 8) 1000000 722222 2300 3) as B8.
    { eapply (books_go _ (life 7) 0 0 500 2 _ _ _ (cfg_of (life 7) kcfg) [ksol1]).
      - eapply (books_other _ _ _ _ (life 6)); [exact B6|apply (at_end_step setup (Pay carol kcfg 1000000)); vm_compute; reflexivity|discriminate].
      - apply (at_end_step (firstn 7 share_story) (harvest_sol nat1 bob vote1 alice vote1 alice None (View vote1 bob 1000))). vm_compute. reflexivity.
      - reflexivity.
      - discriminate.
      - goes.
      - goes.
      - intros k. split.
        + intros [<-|[]]. split; [reflexivity|]. exists (sol_of (life 7) ksol1), (View vote1 bob 1000). split; [split; vm_compute; reflexivity|].
          split; [reflexivity|]. vm_compute. reflexivity.
        + intros (_ & s & v & [_ SA] & [= <-] & X). left.
          assert (s = sol_of (life 7) ksol1) as -> by (unfold sol_of; change (hs_stake _) with ksol1 in SA; now rewrite SA).
          match type of X with if ?b then _ else _ => assert (b = true) as Y by (vm_compute; reflexivity) end. rewrite Y in X. now symmetry.
      - goes.
      - vm_compute. reflexivity.
      - vm_compute. reflexivity.
      - vm_compute. reflexivity.
      - vm_compute. reflexivity. }
    eapply (books_go _ (life 9) 1000000 722222 2300 3 _ _ _ (cfg_of (life 9) kcfg) [kval1]).
    + eapply (books_other _ _ _ _ (life 8)); [exact B8|apply (at_end_step (firstn 8 share_story) (Pay carol kcfg 777777)); vm_compute; reflexivity|discriminate].
    + apply (at_end_step (firstn 9 share_story) (harvest_val vote1 alice)). vm_compute. reflexivity.
    + reflexivity.
    + discriminate.
    + goes.
    + goes.
    + unfold settles_account. simpl. intuition.
    + goes.
    + vm_compute. reflexivity.
    + vm_compute. reflexivity.
    + vm_compute. reflexivity.
    + vm_compute. reflexivity.
  - eapply (keeperless_on _ _ _ (life 9));
    [|apply (at_end_step (firstn 9 share_story) (harvest_val vote1 alice)); vm_compute; reflexivity|intros ? ? [=]; subst; discriminate].
    eapply (keeperless_on _ _ _ (life 8));
    [|apply (at_end_step (firstn 8 share_story) (Pay carol kcfg 777777)); vm_compute; reflexivity|intros ? ? [=]; subst; discriminate].
    eapply (keeperless_on _ _ _ (life 7));
    [|apply (at_end_step (firstn 7 share_story) (harvest_sol nat1 bob vote1 alice vote1 alice None (View vote1 bob 1000))); vm_compute; reflexivity|intros ? ? [=]; subst; discriminate].
    eapply (keeperless_on _ _ _ (life 6));
    [|apply (at_end_step (firstn 6 share_story) (Pay carol kcfg 1000000)); vm_compute; reflexivity|intros ? ? [=]; subst; discriminate].
    eapply (keeperless_on _ _ _ (life 5));
    [|apply (at_end_step (firstn 5 share_story) (stake_sol nat1 bob btok bob 2000 0)); vm_compute; reflexivity|intros ? ? [=]; subst; discriminate].
    eapply (keeperless_on _ _ _ (life 4));
    [|apply (at_end_step (firstn 4 share_story) (stake_val vote1 alice atok alice 500)); vm_compute; reflexivity|intros ? ? [=]; subst; discriminate].
    eapply (keeperless_on _ _ _ (life 3));
    [|apply (at_end_step (firstn 3 share_story) (init_sol nat1 vote1 bob 1000)); vm_compute; reflexivity|intros ? ? [=]; subst; discriminate].
    eapply (keeperless_on _ _ _ (life 2));
    [|apply (at_end_step (firstn 2 share_story) (init_val vote2 dave)); vm_compute; reflexivity|intros ? ? [=]; subst; discriminate].
    eapply (keeperless_on _ _ _ (life 1));
    [|apply (at_end_step (firstn 1 share_story) (init_val vote1 alice)); vm_compute; reflexivity|intros ? ? [=]; subst; discriminate].
    apply keeperless_start.
Qed.
