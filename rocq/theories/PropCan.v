(** Exact success conditions of the instructions that move tokens. *)
From Verif Require Import Base Types Layout Instr Math External Processor Runtime History Spec SpecReward SpecSolvency SpecLive SpecPanic SpecNeeds
  SpecCan WorldLemmas Effects Handlers Evolve Sane Wf Totals Arith Nets Caps Stakers Deposits Inv Demo PropState PropReward PropSolvency PropLive
  Live LiveMore PropExact Panics PropPanic Needs PropNeeds Can.

(** ** C63: exact success conditions of staking, unstaking and slashing *)
Lemma more_of e cx c w w' : env_ok e -> inv e w -> ordinary c -> needs e cx w c -> handler e cx c w = Ok w' -> can e cx w c.
Proof.
  intros OK IV OR ND H. split; [exact ND|]. destruct c; auto; simpl in H, OR, ND |- *.
  - unfold validator_stake_tokens in H. stepn H c0 E0. apply load_config_ok in E0 as [C1 C2].
    stepn H v Ev. apply load_val_ok in Ev as (V1 & V2 & V3). destruct OR as (_ & O1 & O2).
    eapply stake_more; eauto; [apply IV|split; eauto|rewrite V2; exact V3].
  - unfold slash_validator_stake in H. stepn H c0 E0. apply load_config_ok in E0 as [C1 C2].
    stepn H v Ev. apply load_val_ok in Ev as (V1 & V2 & V3). intros d S. apply stake_of_some in S as (_ & S & _).
    eapply slash_more; eauto; [split; eauto|rewrite V2; exact V3].
  - unfold sol_staker_stake_tokens in H. stepn H c0 E0. apply load_config_ok in E0 as [C1 C2].
    stepn H v Ev. apply load_sol_ok in Ev as (V1 & V2 & V3). destruct OR as (_ & O1 & O2).
    eapply stake_more; eauto; [apply IV|split; eauto|rewrite V2; exact V3].
  - destruct ND as (cf & d & ND). destruct OR as [_ O]. eapply unstake_more; eauto.
  - unfold slash_sol_staker_stake in H. stepn H c0 E0. apply load_config_ok in E0 as [C1 C2].
    stepn H v Ev. apply load_sol_ok in Ev as (V1 & V2 & V3). intros d S. apply stake_of_some in S as (_ & S & _).
    eapply slash_more; eauto; [split; eauto|rewrite V2; exact V3].
Qed.
Lemma run_can e cx c w : env_ok e -> inv e w -> total_lamports w < U64 -> ordinary c ->
  (forall k, In k (writes c) -> writable cx k = true) -> can e cx w c -> exists w', run e cx c w = Ok w'.
Proof.
  intros OK IV T OR WR [ND M]. destruct c; try contradiction; simpl in OR, ND, M.
  - destruct ND as (cf & v & [V1 V2] & ND). destruct OR as (O1 & O2 & O3). eapply stake_can; eauto. now rewrite V2.
  - destruct ND as (cf & v & [V1 V2] & ND). pose proof (nx_stake _ _ _ _ _ _ _ ND) as (S & _).
    eapply slash_can; eauto. now rewrite V2.
  - destruct ND as (cf & v & [V1 V2] & ND). destruct OR as (O1 & O2 & O3). eapply stake_can; eauto. now rewrite V2.
  - destruct ND as (cf & d & ND). destruct OR as (O1 & O2). eapply unstake_can; eauto.
  - destruct ND as (cf & v & [V1 V2] & ND). pose proof (nx_stake _ _ _ _ _ _ _ ND) as (S & _).
    eapply slash_can; eauto. now rewrite V2.
Qed.
(** The conditions are necessary: no hypothesis on what the caller made writable,
    nor on the lamports in existence. *)
Theorem C63_only_if e cx c w w' : env_ok e -> reachable e w -> wf_call c -> ordinary c ->
  run e cx c w = Ok w' -> can e cx w c.
Proof.
  intros OK R WC OR RUN. pose proof (C54_accounts_authentic _ _ _ _ _ OK R WC RUN) as ND.
  apply run_ok in RUN as (H & _). eapply more_of; eauto using inv_reachable.
Qed.
Print Assumptions C63_only_if.
(** And sufficient, when the accounts the instruction writes to are writable. *)
Theorem C63_exact e cx c w : env_ok e -> reachable e w -> wf_ctx e cx -> wf_call c -> total_lamports w < 2 ^ 64 ->
  ordinary c -> (forall k, In k (writes c) -> writable cx k = true) ->
  ((exists w', step e w (Do cx c) w') <-> can e cx w c).
Proof.
  intros OK R WX WC T OR WR. split.
  - intros [w' ST]. inversion ST; subst. eapply C63_only_if; eauto.
  - intros CN. destruct (run_can e cx c w) as [w' RUN]; auto using inv_reachable. exists w'. constructor; auto.
Qed.
Print Assumptions C63_exact.
(** So a failure always has a named reason. *)
Theorem C63_failure_has_reason e cx c w x : env_ok e -> reachable e w -> wf_ctx e cx -> wf_call c -> total_lamports w < 2 ^ 64 ->
  ordinary c -> (forall k, In k (writes c) -> writable cx k = true) ->
  run e cx c w = Err x \/ run e cx c w = Panic -> ~ can e cx w c.
Proof.
  intros OK R WX WC T OR WR F CN. destruct (run_can e cx c w) as [w' RUN]; auto using inv_reachable.
  rewrite RUN in F. destruct F; discriminate.
Qed.
Print Assumptions C63_failure_has_reason.

Definition ordinaryb (c : call) : bool :=
  match c with
  | CValidatorStakeTokens a _ | CSolStakerStakeTokens a _ =>
      negb (st_authority a =? st_config a) && negb (st_source a =? st_vault a) && negb (st_source a =? st_ptok a)
  | CUnstakeTokens a _ => negb (un_authority a =? un_config a) && negb (un_dest a =? un_ptok a)
  | CSlashValidatorStake a _ | CSlashSolStakerStake a _ => negb (sl_authority a =? sl_config a)
  | _ => false
  end.
Lemma ordinaryb_ok c : ordinaryb c = true -> ordinary c.
Proof. destruct c; simpl; try discriminate; rewrite ?andb_true_iff, ?negb_true_iff, ?N.eqb_neq; tauto. Qed.
Definition movers : list N := [2; 5; 9; 11; 12].
Definition can_ok (l : list act) (i : nat) : bool :=
  match nth_error l i with
  | Some (Call x c) => if existsb (N.eqb (kind c)) movers
      then ordinaryb c && forallb (writable x) (writes c) && (total_lamports (at_end (firstn i l)) <? U64) else true
  | _ => true
  end.
(* Each of the five instructions occurs in the story and meets the hypotheses there. *)
Example C63_case : let l := story ++ [donate 60; slash_val vote1 dave 10] in
  (forall l1 x c l2, l = l1 ++ Call x c :: l2 -> In (kind c) movers ->
     reachable denv (at_end l1) /\ wf_ctx denv x /\ wf_call c /\ total_lamports (at_end l1) < 2 ^ 64 /\ ordinary c /\
     (forall k, In k (writes c) -> writable x k = true) /\ can denv x (at_end l1) c) /\
  (forall m, In m movers -> In m (flat_map (fun a => match a with Call _ c => [kind c] | _ => [] end) l)).
Proof.
  intros l. assert (runs l = true) as RS by (vm_compute; reflexivity).
  assert (forallb (can_ok l) (seq 0 (length l)) = true) as CK by (vm_compute; reflexivity). split.
  - intros l1 x c l2 E M. rewrite forallb_forall in CK. specialize (CK (length l1)). rewrite E in RS, CK.
    assert (runs (l1 ++ [Call x c]) = true) as R1.
    { apply (runs_front _ l2). rewrite <- app_assoc. exact RS. }
    assert (reachable denv (at_end l1)) as R by (apply at_end_reachable; eapply runs_front; eauto).
    destruct (at_end_run l1 x c R1) as (WX & WC & RUN).
    assert (can_ok (l1 ++ Call x c :: l2) (length l1) = true) as K.
    { apply CK, in_seq. rewrite app_length. simpl. lia. }
    unfold can_ok in K. rewrite nth_error_app2, Nat.sub_diag in K by lia. cbn [nth_error] in K.
    assert (existsb (N.eqb (kind c)) movers = true) as EX.
    { apply existsb_exists. exists (kind c). split; [exact M|apply N.eqb_refl]. }
    rewrite EX in K.
    rewrite firstn_app, firstn_all, Nat.sub_diag in K. cbn [firstn] in K. rewrite app_nil_r in K.
    rewrite !andb_true_iff in K. destruct K as [[K1 K2] K3]. apply ordinaryb_ok in K1. rewrite forallb_forall in K2.
    apply N.ltb_lt in K3. split; [exact R|]. split; [exact WX|]. split; [exact WC|]. split; [exact K3|]. split; [exact K1|].
    split; [exact K2|]. eapply C63_only_if; eauto. apply denv_ok.
  - intros m M. vm_compute in M |- *. tauto.
Qed.
(* The same deposit that succeeds from another wallet is refused from the
   authority's own one: rewards are pending, so the settlement is unbalanced. *)
Example C63_failure_case : let w := at_end (setup ++ [Pay carol kcfg 1000000]) in
  let x := cx [bob] 0 None 0 in let c := CSolStakerStakeTokens (stake_accts_of ksol1 bob btok bob) 1000 in
  reachable denv w /\ wf_ctx denv x /\ wf_call c /\ total_lamports w < 2 ^ 64 /\ ordinary c /\
  (forall k, In k (writes c) -> writable x k = true) /\ run denv x c w = Err UnbalancedInstruction.
Proof.
  cbv zeta. split; [apply at_end_reachable; vm_compute; reflexivity|]. split; [apply ctx_ok_wf; vm_compute; reflexivity|].
  split; [calc|]. split; [calc|]. split; [apply ordinaryb_ok; calc|]. split; [|calc].
  intros k K. simpl in K. repeat (destruct K as [<-|K]; [calc|]). contradiction.
Qed.
