(** Properties: overflow errors tell the truth. *)
From Verif Require Import Base Types Layout Instr Math External Processor Runtime History Spec SpecReward SpecLive
  WorldLemmas Effects Handlers Evolve Sane Wf Arith Totals Nets Caps Stakers Deposits Inv Rewards Collect Progress
  Live LiveMore LiveStake LiveTokens Can SpecError Errors PropError SpecOver Over Demo PropReward.

Lemma init_sol_over e cx a w : env_ok e ->
  over (overflows e cx w (CInitializeSolStakerStake a)) (initialize_sol_staker_stake e cx a w).
Proof.
  intros OK. cbn [overflows]. set (Q := of_val _ _ _ _). unfold initialize_sol_staker_stake. cbv zeta.
  apply over_bind; [calm|intros c C]. apply over_bind; [calm|intros ? _].
  destruct (c_view cx) as [vw|] eqn:CV; [rewrite bind_Ok|intros [=]].
  do 3 (apply over_bind; [calm|intros ? _]). apply over_bind; [calm|intros ? OW]. apply require_ok in OW. b2p OW.
  apply over_bind; [calm|intros ? VK]. apply require_ok in VK. b2p VK.
  apply over_bind; [calm|intros v V]. apply unpack_val_ok in V.
  apply over_bind; [calm|intros ? SK]. apply require_ok in SK. b2p SK.
  assert (is_val a <> is_stake a) as NE by (rewrite VK, SK; intros E; now apply (ok_val_sol e OK) in E).
  do 2 (apply over_bind; [calm|intros ? _]). apply over_bind; [destruct (data_empty _); [calm|]; destruct (_ <=? _); [calm|intros [=]]|intros ? _].
  apply over_bind; [calm|intros ? _]. apply over_bind; [calm|intros w1 W1]. apply over_bind; [calm|intros w2 W2].
  assert (dat (get w2 (is_val a)) = DVal v) as D2.
  { rewrite <- V. unfold system_assign in W2. unfold system_allocate in W1.
    destruct (require _ _) as [?|?|] in W1; [|discriminate..]. rewrite bind_Ok in W1. injection W1 as <-.
    destruct (_ =? _) in W2; [|destruct (require _ _) as [?|?|] in W2; [|discriminate..]; rewrite bind_Ok in W2];
    injection W2 as <-; ws; destruct (N.eqb_spec (is_stake a) (is_val a)); try congruence; reflexivity. }
  ws. destruct (N.eqb_spec (is_stake a) (is_val a)); [congruence|]. rewrite D2. cbn [unpack_val]. rewrite bind_Ok.
  apply over_bind; [|intros ? _; calm].
  intros F. exists v. split; [split; auto|]. exists vw. split; [auto|]. destruct (N.lt_ge_cases (v_total v + vw_effective vw) U64) as [L|G]; [|exact G].
  rewrite add64_lt in F by auto. discriminate.
Qed.
Lemma harvest_holder_over e cx a w P : inv e w -> over P (harvest_holder_rewards e cx a w).
Proof.
  intros I. unfold harvest_holder_rewards. apply over_bind; [calm|intros c C]. apply load_config_at in C.
  apply over_bind; [calm|intros ? _]. apply over_bind; [calm|intros ? _]. apply over_bind; [calm|intros ? _].
  apply over_bind; [destruct (e_create_vault _ _ _); intros [=]|intros ? _].
  do 3 (apply over_bind; [calm|intros ? _]).
  destruct (sync_config_over _ _ _ (i_wf _ _ I) (proj2 C) (proj1 (i_lamp _ _ I _ _ C))) as (rpt & -> & _). rewrite bind_Ok.
  do 3 (apply over_bind; [calm|intros ? _]). calm.
Qed.
Lemma handler_over e cx c w : env_ok e -> inv e w -> total_lamports w < U64 -> wf_ctx e cx -> wf_call c ->
  over (overflows e cx w c) (handler e cx c w).
Proof.
  intros OK I TT WC WL. destruct c; cbn [handler].
  - unfold initialize_config. cbv zeta. repeat (apply over_bind; [calm|intros ? _]). calm.
  - unfold initialize_validator_stake. cbv zeta. repeat (apply over_bind; [calm|intros ? _]). calm.
  - unfold validator_stake_tokens. apply over_bind; [calm|intros ? C]. apply load_config_at in C.
    apply over_bind; [calm|intros ? V]. apply load_val_at in V as [_ S]. eapply stake_over; eauto.
  - now apply harvest_holder_over.
  - now apply harvest_val_over.
  - unfold slash_validator_stake. apply over_bind; [calm|intros ? C]. apply load_config_at in C.
    apply over_bind; [calm|intros v V]. apply load_val_at in V as [[_ V] S]. eapply slash_over; eauto 6.
  - unfold set_authority_ix. cbv zeta. repeat (apply over_bind; [calm|intros ? _]). calm.
  - unfold update_config. do 4 (apply over_bind; [calm|intros ? _]). apply over_bind; [destruct f; [calm| |calm]|intros ? _; calm].
    apply over_bind; [calm|intros ? _; calm].
  - now apply init_sol_over.
  - unfold sol_staker_stake_tokens. apply over_bind; [calm|intros ? C]. apply load_config_at in C.
    apply over_bind; [calm|intros ? V]. apply load_sol_at in V as [_ S]. eapply (stake_over e cx _ true _ w); eauto.
  - apply harvest_sol_over; auto. intros vw V. now apply WC.
  - now apply unstake_over.
  - unfold slash_sol_staker_stake. apply over_bind; [calm|intros ? C]. apply load_config_at in C.
    apply over_bind; [calm|intros v V]. apply load_sol_at in V as [[_ V] S]. eapply (slash_over e cx _ _ w); eauto 6.
  - now apply move_over.
  - now apply override_over.
  - unfold validator_sync_authority. do 2 (apply over_bind; [calm|intros ? _]).
    apply over_bind; [destruct (unpack_val _); intros [=]|intros ? _]. repeat (apply over_bind; [calm|intros ? _]). calm.
Qed.

(** ** C83 *)
Theorem C83_overflow_reasons e cx c w : env_ok e -> reachable e w -> wf_ctx e cx -> wf_call c -> total_lamports w < 2 ^ 64 ->
  run e cx c w = Err ArithmeticOverflow -> overflows e cx w c.
Proof.
  intros OK R WC WL TT. pose proof (inv_reachable _ _ OK R) as I. fold (over (overflows e cx w c) (run e cx c w)).
  unfold run. apply over_bind; [now apply handler_over|]. intros w' _. apply over_bind; [calm|intros ? _; calm].
Qed.
Print Assumptions C83_overflow_reasons.

Lemma modest_boundless l : l <= 2 * 10 ^ 18 -> ~ boundless l.
Proof. unfold boundless, cap. intros L B. assert (13 * l / 10 < 2 ^ 64) by (apply N.div_lt_upper_bound; lia). lia. Qed.
Lemma modest_limitless e cx w k : modest e cx w -> ~ limitless e w k.
Proof.
  intros (MV & MS & _) [(v & V & B)|(s & S & B)]; revert B; apply modest_boundless.
  - destruct (MV _ _ V). lia.
  - specialize (MS _ _ S). lia.
Qed.
(** With amounts of SOL that exist, an overflow means one of three things: the config was
    named as the one to be paid, it holds less than it owes, or the call asked for
    an amount no one has. *)
Theorem C83_overflow_in_practice e cx c w : env_ok e -> reachable e w -> wf_ctx e cx -> wf_call c -> total_lamports w < 2 ^ 64 ->
  modest e cx w -> run e cx c w = Err ArithmeticOverflow ->
  excessive e w c \/ exists ck, call_config c = ck /\ (In ck (payees c) \/ short e w ck (settled_stakes c)).
Proof.
  intros OK R WC WL TT M H. apply C83_overflow_reasons in H; auto. pose proof (fun k => modest_limitless e cx w k M) as NL.
  pose proof M as (MV & MS & MW).
  destruct c; cbn [overflows excessive payees settled_stakes call_config] in *; try contradiction.
  - destruct H as [A|[S|[L|X]]]; [right; eauto|right; eauto|destruct (NL _ L)|left; exact X].
  - destruct H as [A|S]; right; eauto.
  - destruct H as [A|[S|L]]; [right; eauto|right; eauto|destruct (NL _ L)].
  - exfalso. destruct H as (v & V & vw & W & X). destruct (MV _ _ V). specialize (MW _ W). lia.
  - destruct H as [A|[S|[L|X]]]; [right; eauto|right; eauto|destruct (NL _ L)|left; exact X].
  - destruct H as [A|[K|[S|[(s & S & v & V & B)|(vw & W & B)]]]].
    + right. eexists. split; [reflexivity|]. left. apply in_or_app. left. exact A.
    + right. eexists. split; [reflexivity|]. left. apply in_or_app. right. rewrite K. left. reflexivity.
    + right. eauto.
    + exfalso. revert B. apply modest_boundless. destruct (MV _ _ V). lia.
    + exfalso. specialize (MW _ W). destruct B as [B|(v & V & B)]; revert B; apply modest_boundless; [lia|]. destruct (MV _ _ V). lia.
  - destruct H as [A|[S|L]]; [right; eauto|right; eauto|destruct (NL _ L)].
  - destruct H as [A|[S|L]]; [right; eauto|right; eauto|destruct (NL _ L)].
  - destruct H as [A|[S|[L|[L|X]]]]; [right; eauto|right; eauto|destruct (NL _ L)..|left; exact X].
  - destruct H as [A|[S|(v & V & B)]]; [right; eauto|right; eauto|].
    left. destruct (N.lt_ge_cases (10 ^ 18) amount_min) as [L|L]; [exact L|]. exfalso. revert B. apply modest_boundless. destruct (MV _ _ V). lia.
Qed.
Print Assumptions C83_overflow_in_practice.

(** Cases: one for each way.  [modestb] decides the accounts' part of [modest]. *)
Definition modestb (w : world) : bool :=
  forallb (fun ka => match dat (snd ka) with
                     | DVal v => (v_total v <=? 10 ^ 18) && (v_min v <=? 10 ^ 18)
                     | DSol s => s_lamports s <=? 10 ^ 18
                     | _ => true end) (map_to_list w).
Lemma modestb_ok cx w : modestb w = true -> (forall vw, c_view cx = Some vw -> vw_effective vw <= 10 ^ 18) -> modest denv cx w.
Proof.
  intros H V. unfold modestb in H. rewrite forallb_forall in H.
  assert (forall k D, dat (get w k) = D -> (forall b, D <> DRaw b) -> exists a, In (k, a) (map_to_list w) /\ dat a = D) as F.
  { intros k D E N. unfold get in E. destruct (w !! k) as [a|] eqn:L; [|exfalso; eapply N; symmetry; exact E].
    exists a. split; [|exact E]. apply elem_of_list_In. now apply elem_of_map_to_list. }
  split; [|split; [|exact V]].
  - intros k v [_ D]. destruct (F _ _ D ltac:(discriminate)) as (a & IN & E). specialize (H _ IN). simpl in H. rewrite E in H.
    apply andb_prop in H as [H1 H2]. apply N.leb_le in H1, H2. auto.
  - intros k s [_ D]. destruct (F _ _ D ltac:(discriminate)) as (a & IN & E). specialize (H _ IN). simpl in H. rewrite E in H.
    now apply N.leb_le in H.
Qed.
Definition jump (n : N) : act :=
  Call (cx [alice] 0 None (n * 10 ^ 18)) (CSolStakerStakeTokens (stake_accts_of ksol1 bob atok alice) 1000).
Definition overflowing : list (list act * ctx * call) :=
  [ (* a cap that does not fit *)
    (firstn 7 story, cx [gov] 0 None 0, CValidatorOverride (OverrideA kcfg gov kval1 alice kvhr) (2 ^ 64 - 1));
    (* more than is staked *)
    (firstn 13 story, cx [bob] 0 None 0, CSolStakerMoveTokens (MoveA kcfg kvhr bob ksol1 ksol2) 2001);
    (* more than there can be *)
    (setup, cx [bob] 0 None 0, CSolStakerStakeTokens (stake_accts_of ksol1 bob btok bob) (2 ^ 64 - 1));
    (* the holder rate jumped during a deposit, and the config owes what it does not have *)
    (setup ++ [jump 1000], cx [] 0 (Some (View vote1 bob 1000)) 0,
     CHarvestSolStakerRewards (HarvestSolA (e_view denv) kcfg kvhr ksol1 bob nat1 kval1 alice kval1 alice None)) ].
Example C83_practice_case : forall l x c, In (l, x, c) overflowing ->
  let w := at_end l in
  reachable denv w /\ wf_ctx denv x /\ wf_call c /\ total_lamports w < 2 ^ 64 /\ modest denv x w /\ run denv x c w = Err ArithmeticOverflow.
Proof.
  intros l x c IN. cbv zeta. unfold overflowing in IN. simpl in IN.
  repeat (destruct IN as [E|IN]; [injection E as <- <- <-|]); try contradiction.
  all: split; [apply at_end_reachable; vm_compute; reflexivity|].
  all: split; [apply ctx_ok_wf; vm_compute; reflexivity|].
  all: split; [vm_compute; try reflexivity; exact I|].
  all: split; [vm_compute; reflexivity|].
  all: split; [apply modestb_ok; [vm_compute; reflexivity|intros vw V; try discriminate V; injection V as <-; vm_compute; discriminate]|vm_compute; reflexivity].
Qed.
(* the config owes the staker 3 000 000 lamports and holds 2 227 200 *)
Example C83_short_case : let w := at_end (setup ++ [jump 1000]) in
  pending denv w kcfg ksol1 = 3000000 /\ lam (get w kcfg) = 2227200 /\ short denv w kcfg [ksol1; kval1; kval1].
Proof. cbv zeta. split; [vm_compute; reflexivity|]. split; [vm_compute; reflexivity|]. unfold short. vm_compute. reflexivity. Qed.
(* a view answer that does not fit the validator's total; not modest *)
Example C83_init_case : let w := at_end setup in let x := cx [] 0 (Some (View vote1 bob (2 ^ 64 - 1))) 0 in
  let c := CInitializeSolStakerStake (InitSolA kcfg (e_duna denv bob docs) ksol2 (e_override denv bob kcfg) kval1 nat2 (e_view denv)) in
  reachable denv w /\ wf_ctx denv x /\ wf_call c /\ total_lamports w < 2 ^ 64 /\ run denv x c w = Err ArithmeticOverflow.
Proof.
  cbv zeta. split; [apply at_end_reachable; vm_compute; reflexivity|].
  split; [apply ctx_ok_wf; vm_compute; reflexivity|]. split; [exact I|]. split; vm_compute; reflexivity.
Qed.
