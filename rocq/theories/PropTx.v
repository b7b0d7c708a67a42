(** Whole transactions: the runtime's rent check and the removal of empty accounts. *)
From stdpp Require Import fin_maps gmap.
From Verif Require Import Base Types Layout Instr Math External Processor Runtime History Spec SpecReward SpecSolvency SpecLive SpecNeeds
  WorldLemmas Effects Handlers Evolve Sane Wf Totals Arith Nets Caps Stakers Deposits Inv Life Tokens Gov Flow Kinds
  Rewards Collect Pays Progress Demo PropState PropTokens PropAuth PropReward Solvency PropSolvency Needs
  Tx SpecTx TxLemmas DemoTx.

(** ** C75: chains of transactions are histories *)
Lemma steps_trans e w1 t1 w2 t2 w3 : steps e w1 t1 w2 -> steps e w2 t2 w3 -> exists t, steps e w1 t w3.
Proof.
  intros A B. revert A. induction B as [w|w tr wa ev wb B IH ST]; intros A; [eauto|].
  destruct (IH A) as [t C]. exists (t ++ [ev]). eapply steps_snoc; eauto.
Qed.
Lemma within_steps e w w' : within e w w' -> exists tr, steps e w tr w'.
Proof.
  induction 1 as [w|w wa cx c wb W [t IH] ST|w wa wb W [t IH] ST F]; [exists []; constructor| |]; eexists; eapply steps_snoc; eauto.
Qed.
Lemma txs_steps e w w' : env_ok e -> (forall n, 0 < e_rent e n) -> reachable e w -> funded e w -> settled e w ->
  txs e w w' -> exists tr, steps e w tr w'.
Proof.
  intros OK RP R F S. induction 1 as [w|w wa wb T IH X]; [exists []; constructor|].
  destruct (IH R F S) as [t A]. destruct (txs_props _ _ _ OK RP R F S T) as (R1 & F1 & S1).
  destruct X as (w2 & W & RO & ->). destruct (within_steps _ _ _ W) as [t2 B].
  destruct (within_props _ _ _ OK R1 F1 W) as [R2 F2].
  assert (steps e w2 [Other] (purge w2)) as C.
  { apply (steps_snoc e w2 [] w2 Other); [constructor|]. apply step_other. now apply purge_rely. }
  destruct (steps_trans _ _ _ _ _ _ A B) as [t3 D]. eapply steps_trans; eauto.
Qed.
(** Everything proved of reachable worlds and of histories holds of transactions. *)
Theorem C75_chain e w : env_ok e -> (forall n, 0 < e_rent e n) -> chain e w -> reachable e w /\ settled e w.
Proof. intros OK RP C. destruct (chain_props _ _ OK RP C) as (R & _ & S). auto. Qed.
Print Assumptions C75_chain.
Theorem C75_transactions e w w' : env_ok e -> (forall n, 0 < e_rent e n) -> chain e w -> txs e w w' ->
  exists tr, steps e w tr w'.
Proof. intros OK RP C T. destruct (chain_props _ _ OK RP C) as (R & F & S). eapply txs_steps; eauto. Qed.
Print Assumptions C75_transactions.
(** A transaction of instructions of this program that went through is one of those. *)
Lemma run_all_within e l w w' : Forall (fun p => wf_ctx e (fst p) /\ wf_call (snd p)) l -> run_all e l w = Ok w' -> within e w w'.
Proof.
  revert w. induction l as [|[cx c] l IH]; cbn [run_all]; intros w W; [intros [= <-]; constructor|].
  inversion W as [|? ? [WC WL] W2]; subst. destruct (run e cx c w) as [w1| |] eqn:RUN; cbn [bind]; try discriminate. intros H.
  apply within_trans with w1; [|auto]. eapply within_do; [constructor|]. constructor; eauto.
Qed.
Theorem C75_transaction e l w w' : Forall (fun p => wf_ctx e (fst p) /\ wf_call (snd p)) l ->
  transaction e l w = Final w' -> tx e w w'.
Proof.
  intros W. unfold transaction. destruct (run_all e l w) as [w1| |] eqn:R; try discriminate.
  destruct (rent_ok e w w1) eqn:RO; [|discriminate]. intros [= <-]. exists w1. split; [|auto]. eapply run_all_within; eauto.
Qed.
Print Assumptions C75_transaction.
(** The program's accounts are never removed. *)
Theorem C75_survive e w w' k : env_ok e -> (forall n, 0 < e_rent e n) -> chain e w -> txs e w w' ->
  own (get w k) = e_prog e -> (forall b, dat (get w k) <> DRaw b) ->
  own (get w' k) = e_prog e /\ (forall b, dat (get w' k) <> DRaw b) /\ 0 < lam (get w' k).
Proof.
  intros OK RP C T O Z. destruct (chain_props _ _ OK RP C) as (R & F & S).
  destruct (txs_steps _ _ _ OK RP R F S T) as [tr ST]. destruct (txs_props _ _ _ OK RP R F S T) as (R' & _ & S').
  pose proof (inv_reachable _ _ OK R) as I.
  destruct (kept_steps _ _ _ _ OK I ST k O Z) as [O' SI].
  split; [auto|]. split; [eapply same_id_not_raw; eauto|]. destruct (S' k) as [E|E]; [|unfold exempt in E; specialize (RP (data_len (dat (get w' k)))); lia].
  exfalso. destruct (prog_ids _ OK) as (P0 & _). rewrite E in O'. cbn in O'. congruence.
Qed.
Print Assumptions C75_survive.

(** ** C77: which transactions the rent check refuses *)
Definition payee (e : env) (w : world) (c : call) (k : pubkey) : Prop :=
  stake_authority e w (call_config c) k \/ keeper_of c = Some k \/ k = e_vault e (call_config c).
(** [k] is paid by one of the instructions of [l]. *)
Definition paid_in (e : env) (l : list (ctx * call)) (w : world) (k : pubkey) : Prop :=
  exists l1 cx c l2 w1, l = l1 ++ (cx, c) :: l2 /\ run_all e l1 w = Ok w1 /\ payee e w1 c k.
Definition pools_sized (e : env) (w : world) : Prop := forall m,
  own (get w (e_pool e m)) = e_rewards e -> data_len (dat (get w (e_pool e m))) = 64.
Definition nearly (e : env) (P : pubkey -> Prop) (w0 w : world) : Prop := forall k,
  exempt e (get w k) \/ (get w0 k = no_account /\ data_len (dat (get w k)) = 0 /\ (lam (get w k) = 0 \/ P k)).
Lemma pools_did e cx w w' c : env_ok e -> sane e w -> did e cx w w' c -> pools_sized e w -> pools_sized e w'.
Proof.
  intros OK S D PS m O. destruct (prog_ids _ OK) as (_ & _ & PR & _).
  destruct (did_own _ _ _ _ _ (e_pool e m) OK D) as [E|E]; [|congruence]. rewrite E in O.
  destruct (kind_did _ _ _ _ _ (e_pool e m) OK S D) as [K|[K _]]; [|congruence]. rewrite (kind_len _ _ K). auto.
Qed.
Lemma fresh_exempt e w k : env_ok e -> reachable e w -> own (get w k) = e_prog e ->
  (exists cf, dat (get w k) = DConfig cf) \/ stakeish (dat (get w k)) -> exempt e (get w k).
Proof.
  intros OK R O [[cf D]|ST]; unfold exempt.
  - rewrite D. apply (C35_rent_exempt _ _ _ cf OK R). split; auto.
  - apply (stake_rent_reachable _ _ OK R k O ST).
Qed.
Lemma nearly_step e cx c w0 w w' (P : pubkey -> Prop) : env_ok e -> reachable e w -> pools_sized e w -> wf_ctx e cx -> wf_call c ->
  run e cx c w = Ok w' -> nearly e P w0 w -> nearly e (fun k => P k \/ payee e w c k) w0 w'.
Proof.
  intros OK R PS WC WL RUN NE k. pose proof (inv_reachable _ _ OK R) as I. pose proof (i_sane _ _ I) as S.
  assert (step e w (Do cx c) w') as ST by (constructor; auto).
  assert (reachable e w') as R' by (eapply reachable_step; eauto).
  apply run_ok in RUN as (_ & D & _).
  destruct (kind_did _ _ _ _ _ k OK S D) as [K|[O F]]; [|left; apply fresh_exempt; auto].
  pose proof (kind_len _ _ K) as L. unfold exempt in *. rewrite L.
  assert (lam (get w' k) < lam (get w k) -> e_rent e (data_len (dat (get w k))) <= lam (get w' k)) as DOWN.
  { intros LT. destruct (syncs c) eqn:Y; [|rewrite (quiet_lam _ _ _ _ _ D Y) in LT; lia].
    destruct (syncs_config _ _ _ _ _ D Y) as (c0 & C0).
    destruct (flow_fine _ _ _ _ _ OK S D k) as [_ FL]. destruct (FL LT) as [E|[[E [RR _]]|(OR & [m E] & RR)]].
    - subst k. destruct (kept_config _ _ _ _ _ (kept_did _ _ _ _ _ OK S D) C0) as (c1 & C1 & _).
      pose proof (C35_rent_exempt _ _ _ _ OK R' C1) as X. rewrite <- L. destruct C1 as [_ ->]. exact X.
    - rewrite RR. reflexivity.
    - subst k. rewrite PS; auto. }
  destruct (N.lt_ge_cases (lam (get w' k)) (lam (get w k))) as [LT|GE]; [left; auto|].
  destruct (NE k) as [X|(A & B & C)]; [left; unfold exempt in X; lia|].
  destruct (N.eq_dec (lam (get w' k)) (lam (get w k))) as [EQ|NQ].
  { right. split; [auto|]. split; [auto|]. rewrite EQ. destruct C; auto. }
  destruct (syncs c) eqn:Y; [|rewrite (quiet_lam _ _ _ _ _ D Y) in NQ; lia].
  destruct (syncs_config _ _ _ _ _ D Y) as (c0 & C0).
  destruct (flow_fine _ _ _ _ _ OK S D k) as [G _]. destruct G as [G|[G|[G|G]]]; [lia| | | |].
  - right. split; [auto|]. split; [auto|]. right. right. left. exact G.
  - right. split; [auto|]. split; [auto|]. right. right. right. left. exact G.
  - exfalso. subst k. destruct C0 as [_ CD]. rewrite CD in B. discriminate.
  - right. split; [auto|]. split; [auto|]. right. right. right. right. exact G.
Qed.
Lemma nearly_all e l w0 w w' (P : pubkey -> Prop) : env_ok e -> reachable e w -> pools_sized e w ->
  Forall (fun p => wf_ctx e (fst p) /\ wf_call (snd p)) l -> run_all e l w = Ok w' ->
  nearly e P w0 w -> nearly e (fun k => P k \/ paid_in e l w k) w0 w'.
Proof.
  intros OK. revert w P. induction l as [|[cx c] l IH]; cbn [run_all]; intros w P R PS W.
  - intros [= <-] NE k. destruct (NE k) as [|(A & B & C)]; [auto|right]. intuition.
  - inversion W as [|? ? [WC WL] W2]; subst. cbn [fst snd] in WC, WL.
    destruct (run e cx c w) as [w1| |] eqn:RUN; cbn [bind]; try discriminate. intros H NE.
    assert (step e w (Do cx c) w1) as ST by (constructor; auto).
    pose proof (nearly_step _ _ _ _ _ _ _ OK R PS WC WL RUN NE) as N1.
    assert (pools_sized e w1) as PS1.
    { apply run_ok in RUN as (_ & D & _). eapply pools_did; eauto. apply (inv_reachable _ _ OK R). }
    intros k. destruct (IH w1 _ (reachable_step _ _ _ _ R ST) PS1 W2 H N1 k) as [|(A & B & C)]; [auto|right].
    split; [auto|]. split; [auto|]. destruct C as [C|[[C|C]|C]]; auto; right; right.
    + exists [], cx, c, l, w. auto.
    + destruct C as (l1 & cx1 & c1 & l2 & w2 & E1 & E2 & E3). exists ((cx, c) :: l1), cx1, c1, l2, w2.
      split; [cbn; now rewrite E1|]. split; [cbn [run_all]; rewrite RUN; exact E2|exact E3].
Qed.
(** A transaction of this program's instructions that all succeed is refused exactly
    when one of them paid an account that did not exist and left it below the rent
    minimum of an account without data. *)
Theorem C77_refused_when e l w w' : env_ok e -> reachable e w -> settled e w -> pools_sized e w ->
  Forall (fun p => wf_ctx e (fst p) /\ wf_call (snd p)) l -> run_all e l w = Ok w' ->
  (transaction e l w = Refused /\
   exists k, get w k = no_account /\ paid_in e l w k /\ data_len (dat (get w' k)) = 0 /\ 0 < lam (get w' k) < e_rent e 0) \/
  (transaction e l w = Final (purge w') /\
   forall k, data_len (dat (get w' k)) = 0 -> lam (get w' k) = 0 \/ e_rent e 0 <= lam (get w' k)).
Proof.
  intros OK R S PS W RUN. unfold transaction. rewrite RUN.
  assert (nearly e (fun k => False \/ paid_in e l w k) w w') as NE.
  { eapply nearly_all; eauto. intros k. destruct (S k) as [E|E]; [|auto]. right. rewrite E. auto. }
  destruct (rent_ok e w w') eqn:RO.
  - right. split; [auto|]. intros k L. pose proof (proj1 (rent_ok_settled _ _ _ S) RO k) as [Z|Z]; [auto|right].
    unfold exempt in Z. now rewrite L in Z.
  - left. split; [auto|].
    assert (exists p, In p (map_to_list w') /\ rent_moves e (get w (fst p)) (snd p) = false) as ([k a] & IN & M).
    { revert RO. unfold rent_ok. induction (map_to_list w') as [|p q IH]; cbn [forallb]; [discriminate|].
      destruct (rent_moves e (get w (fst p)) (snd p)) eqn:M; [cbn [andb]|exists p; simpl; auto].
      intros H. destruct (IH H) as (p' & IN & M'). exists p'. simpl. auto. }
    cbn [fst snd] in M. apply elem_of_list_In, elem_of_map_to_list in IN.
    assert (get w' k = a) as GA by (unfold get; now rewrite IN). rewrite <- GA in M.
    assert (0 < lam (get w' k) /\ ~ exempt e (get w' k)) as [A B].
    { apply rent_paying_iff. unfold rent_moves in M. destruct (rent_paying e (get w' k)); auto. }
    exists k. destruct (NE k) as [X|(X & Y & [Z|[[]|Z]])]; [contradiction|lia|].
    split; [auto|]. split; [auto|]. split; [auto|]. unfold exempt in B. rewrite Y in B. lia.
Qed.
Print Assumptions C77_refused_when.
(** Nothing is refused when whoever is paid already exists. *)
Theorem C77_accepted e l w w' : env_ok e -> reachable e w -> settled e w -> pools_sized e w ->
  Forall (fun p => wf_ctx e (fst p) /\ wf_call (snd p)) l -> run_all e l w = Ok w' ->
  (forall k, paid_in e l w k -> 0 < lam (get w k)) -> transaction e l w = Final (purge w').
Proof.
  intros OK R S PS W RUN H. destruct (C77_refused_when e l w w' OK R S PS W RUN) as [[_ (k & E & P & _)]|[F _]]; [exfalso|auto].
  apply H in P. rewrite E in P. cbn in P. lia.
Qed.
Print Assumptions C77_accepted.
(** Worlds with accounts from before rent exemption was required: an account may stay
    short of its minimum, but no transaction makes one short, resizes a short one or
    adds to it without making it exempt; and nothing else is refused. *)
Definition short (e : env) (a : account) : Prop := 0 < lam a /\ ~ exempt e a.
Theorem C77_short_accounts e l w w' : run_all e l w = Ok w' ->
  (transaction e l w = Final (purge w') <->
   forall k, short e (get w' k) ->
     short e (get w k) /\ data_len (dat (get w' k)) = data_len (dat (get w k)) /\ lam (get w' k) <= lam (get w k)) /\
  (transaction e l w <> Final (purge w') -> transaction e l w = Refused).
Proof.
  intros RUN. unfold transaction. rewrite RUN.
  assert (rent_ok e w w' = true <-> forall k, short e (get w' k) ->
     short e (get w k) /\ data_len (dat (get w' k)) = data_len (dat (get w k)) /\ lam (get w' k) <= lam (get w k)) as IFF.
  { rewrite rent_ok_iff. split; intros H k; specialize (H k); unfold rent_moves in *.
    - intros SH. apply rent_paying_iff in SH. rewrite SH in H. cbn [negb orb] in H.
      apply andb_true_iff in H as [H L]. apply andb_true_iff in H as [P Q].
      apply N.leb_le in L. apply N.eqb_eq in Q. apply rent_paying_iff in P. split; [exact P|auto].
    - destruct (rent_paying e (get w' k)) eqn:SH; [|reflexivity]. apply rent_paying_iff in SH.
      destruct (H SH) as (P & Q & L). apply rent_paying_iff in P. rewrite P, Q, N.eqb_refl. cbn. now apply N.leb_le. }
  split.
  - rewrite <- IFF. destruct (rent_ok e w w'); split; auto; discriminate.
  - destruct (rent_ok e w w'); [congruence|auto].
Qed.
Print Assumptions C77_short_accounts.
(** A staker without a wallet and with a small reward cannot be slashed, nor a
    validator without one have its minimum overridden. *)
Lemma no_transaction e l w k w' : run_all e l w = Ok w' -> settled e w -> data_len (dat (get w' k)) = 0 ->
  0 < lam (get w' k) < e_rent e 0 -> transaction e l w = Refused.
Proof.
  intros RUN S D L. unfold transaction. rewrite RUN. destruct (rent_ok e w w') eqn:RO; [exfalso|auto].
  destruct (proj1 (rent_ok_settled _ _ _ S) RO k) as [Z|Z]; [lia|]. unfold exempt in Z. rewrite D in Z. lia.
Qed.
Lemma paid_data e cx c w w' k : env_ok e -> reachable e w -> run e cx c w = Ok w' -> get w k = no_account -> syncs c = true ->
  data_len (dat (get w' k)) = 0.
Proof.
  intros OK R RUN E Y. apply run_ok in RUN as (_ & D & _). pose proof (i_sane _ _ (inv_reachable _ _ OK R)) as S.
  destruct (kind_did _ _ _ _ _ k OK S D) as [K|[O F]]; [now rewrite (kind_len _ _ K), E|]. exfalso.
  assert (creates c = false) as C by (destruct c; auto; discriminate Y).
  rewrite (ev_own _ _ _ (did_evolves _ _ _ _ _ OK D C)), E in O. destruct (prog_ids _ OK) as (P0 & _). cbn in O. congruence.
Qed.
Definition penalty (c : call) (ck sk : pubkey) : Prop :=
  match c with
  | CSlashValidatorStake a _ | CSlashSolStakerStake a _ => sl_config a = ck /\ sl_stake a = sk
  | CValidatorOverride a _ => ov_config a = ck /\ ov_stake a = sk
  | _ => False
  end.
Theorem C77_no_penalty e cx c w ck sk d : env_ok e -> reachable e w -> settled e w ->
  penalty c ck sk -> stake_of e w ck sk = Some d -> get w (authority d) = no_account ->
  0 < pending e w ck sk < e_rent e 0 -> forall w', transaction e [(cx, c)] w <> Final w'.
Proof.
  intros OK R S PC SO NA PE w' T.
  assert (exists w1, run e cx c w = Ok w1) as [w1 RUN].
  { unfold transaction in T. cbn [run_all] in T. destruct (run e cx c w) as [w1| |]; cbn [bind] in T; try discriminate. eauto. }
  assert (pays_only e ck [sk] w w1) as PO.
  { destruct c; cbn [penalty] in PC; try contradiction; destruct PC as [<- <-].
    - eapply C24_slashing_pays; eauto.
    - eapply C24_slashing_pays; eauto.
    - eapply C24_override_pays; eauto. }
  specialize (PO (authority d)). cbn [sum_over] in PO. unfold share in PO. rewrite SO, N.eqb_refl, NA in PO. cbn [lam no_account] in PO.
  assert (authority d <> ck) as NC.
  { intros E. rewrite E in NA. unfold pending in PE. rewrite NA in PE. cbn in PE. rewrite SO in PE. lia. }
  rewrite (proj2 (N.eqb_neq _ _) NC) in PO. rewrite (no_transaction e [(cx, c)] w (authority d) w1) in T; [discriminate| | | |]; auto.
  - cbn [run_all]. rewrite RUN. reflexivity.
  - eapply paid_data; eauto. destruct c; auto; contradiction PC.
  - lia.
Qed.
Print Assumptions C77_no_penalty.

(** ** C76: a vault authority without lamports *)
Lemma vault_step e w ev w' ck c : env_ok e -> reachable e w -> step e w ev w' -> config_at e w ck c -> own (get w (e_vault e ck)) = 0 ->
  own (get w' (e_vault e ck)) = 0 /\ lam (get w (e_vault e ck)) <= lam (get w' (e_vault e ck)).
Proof.
  intros OK R ST CA O. destruct (prog_ids _ OK) as (P0 & _ & _ & _ & _ & _ & _ & R0).
  pose proof (inv_reachable _ _ OK R) as I. pose proof (i_sane _ _ I) as S.
  destruct ST as [w cx c0 w' WC WL RUN|w w' RL].
  2:{ destruct (rely_pda _ _ _ RL (e_vault e ck)) as (A & _ & B); [apply pda_vault|congruence|]. split; [congruence|auto]. }
  pose proof RUN as RUN0. apply run_ok in RUN as (H & D & _). split.
  - destruct (creates c0) eqn:C; [|rewrite (ev_own _ _ _ (did_evolves _ _ _ _ _ OK D C)); auto].
    destruct D; try discriminate C; clear C H RUN0.
    + destruct (config_created_facts _ _ _ _ _ _ _ _ _ _ _ OK S H0) as (bs & E & _). destruct H0. rewrite Ho.
      destruct (N.eqb_spec (ic_vault_pda a) (e_vault e ck)) as [X|]; [exfalso|auto].
      rewrite Hvp in X. apply (ok_vault_inj _ OK) in X. subst ck. destruct CA; congruence.
    + destruct H0. rewrite Ho. destruct (N.eqb_spec (iv_stake a) (e_vault e ck)) as [X|]; [exfalso|auto].
      rewrite Hk in X. now apply (ok_val_vault _ OK) in X.
    + destruct H0. rewrite Ho. destruct (N.eqb_spec (is_stake a) (e_vault e ck)) as [X|]; [exfalso|auto].
      rewrite Hk in X. now apply (ok_sol_vault _ OK) in X.
  - destruct (N.le_gt_cases (lam (get w (e_vault e ck))) (lam (get w' (e_vault e ck)))) as [|LT]; [auto|exfalso].
    destruct (syncs c0) eqn:Y; [|rewrite (quiet_lam _ _ _ _ _ D Y) in LT; lia].
    destruct (syncs_config _ _ _ _ _ D Y) as (c1 & [CO _]).
    destruct (flow_fine _ _ _ _ _ OK S D (e_vault e ck)) as [_ F]. destruct (F LT) as [E|[(E & RR & [a ->])|(E & _)]]; [congruence| |congruence].
    cbn [call_config] in E. apply (ok_vault_inj _ OK) in E. subst ck.
    pose proof (handler_needs _ _ _ _ _ OK WL I H) as (c2 & NK).
    destruct (sane_cfg _ _ S _ _ CA) as (_ & _ & _ & _ & VD). rewrite VD in RR.
    destruct (nk_owner _ _ _ _ _ NK) as [X|X]; rewrite (proj1 (proj2 (nk_vault _ _ _ _ _ NK))) in X; [congruence|].
    cbn in RR. lia.
Qed.
(** The authority of a config's vault is absent or owned by the system program when it
    had no lamports at the end of the transaction that created the config. *)
Theorem C76_unfunded e w ck : env_ok e -> (forall n, 0 < e_rent e n) -> chain e w -> lam (get w (e_vault e ck)) = 0 ->
  own (get w (e_vault e ck)) = 0.
Proof.
  intros OK RP C Z. destruct (C75_chain _ _ OK RP C) as [_ S]. destruct (S (e_vault e ck)) as [->|E]; [reflexivity|].
  unfold exempt in E. specialize (RP (data_len (dat (get w (e_vault e ck))))). lia.
Qed.
Print Assumptions C76_unfunded.
(** It then never belongs to the program again and never loses a lamport. *)
Theorem C76_for_ever e w tr w' ck c : env_ok e -> reachable e w -> steps e w tr w' -> config_at e w ck c ->
  own (get w (e_vault e ck)) = 0 ->
  own (get w' (e_vault e ck)) = 0 /\ lam (get w (e_vault e ck)) <= lam (get w' (e_vault e ck)).
Proof.
  intros OK R ST CA O. induction ST as [w|w tr w1 ev w2 ST IH S1]; [auto using N.le_refl|].
  destruct (IH R CA O) as [O1 L1]. pose proof (kept_steps _ _ _ _ OK (inv_reachable _ _ OK R) ST) as K.
  destruct (kept_config _ _ _ _ _ K CA) as (c1 & C1 & _).
  assert (reachable e w1) as R1 by (eapply reachable_steps; eauto).
  destruct (vault_step _ _ _ _ _ _ OK R1 S1 C1 O1). split; [auto|lia].
Qed.
Print Assumptions C76_for_ever.
(** What the rewards pool pays for the vault does not reach the config. *)
Theorem C76_nothing_collected e cx a w w' : env_ok e -> reachable e w -> run e cx (CHarvestHolderRewards a) w = Ok w' ->
  own (get w (e_vault e (hh_config a))) = 0 -> lam (get w' (hh_config a)) = lam (get w (hh_config a)) /\
  lam (get w (e_vault e (hh_config a))) <= e_rent e 0.
Proof.
  intros OK R RUN O. destruct (prog_ids _ OK) as (P0 & _).
  destruct (C26_holder_harvest _ _ _ _ _ OK R RUN) as (c & c' & paid & C & C' & _ & _ & _ & _ & HA & PD & LV & LC & _).
  apply run_ok in RUN as (H & _). destruct (handler_needs _ _ (CHarvestHolderRewards a) _ _ OK Logic.I (inv_reachable _ _ OK R) H) as (c2 & NK).
  destruct (nk_owner _ _ _ _ _ NK) as [X|X]; rewrite (proj1 (proj2 (nk_vault _ _ _ _ _ NK))) in X; [congruence|].
  rewrite <- HA in X. unfold pool_owes in X. rewrite <- PD in X. lia.
Qed.
Print Assumptions C76_nothing_collected.
(** One lamport above the rent minimum and no harvest of holder rewards ever succeeds. *)
Theorem C76_harvest_blocked e w tr w' ck c cx a w2 : env_ok e -> reachable e w -> steps e w tr w' -> config_at e w ck c ->
  own (get w (e_vault e ck)) = 0 -> e_rent e 0 < lam (get w (e_vault e ck)) -> hh_config a = ck ->
  run e cx (CHarvestHolderRewards a) w' <> Ok w2.
Proof.
  intros OK R ST CA O L <- RUN. destruct (C76_for_ever _ _ _ _ _ _ OK R ST CA O) as [O1 L1].
  assert (reachable e w') as R' by (eapply reachable_steps; eauto).
  destruct (C76_nothing_collected _ _ _ _ _ OK R' RUN O1). lia.
Qed.
Print Assumptions C76_harvest_blocked.
(** A vault authority that had lamports when its config was created belongs to the
    program from then on. *)
Theorem C76_funded e w tr w' ck c : env_ok e -> (forall n, 0 < e_rent e n) -> reachable e w -> steps e w tr w' -> config_at e w ck c ->
  own (get w (e_vault e ck)) = e_prog e -> 0 < lam (get w (e_vault e ck)) ->
  own (get w' (e_vault e ck)) = e_prog e /\ 0 < lam (get w' (e_vault e ck)).
Proof.
  intros OK RP R ST CA O L. induction ST as [w|w tr w1 ev w2 ST IH S1]; [auto|].
  destruct (IH R CA O L) as [O1 L1]. pose proof (kept_steps _ _ _ _ OK (inv_reachable _ _ OK R) ST) as K.
  destruct (kept_config _ _ _ _ _ K CA) as (c1 & C1 & _).
  assert (reachable e w1) as R1 by (eapply reachable_steps; eauto).
  pose proof (i_sane _ _ (inv_reachable _ _ OK R1)) as S.
  destruct (sane_cfg _ _ S _ _ C1) as (_ & _ & _ & _ & VD).
  destruct S1 as [w1 cx c0 w2 WC WL RUN|w1 w2 RL].
  - apply run_ok in RUN as (_ & D & _). split; [destruct (did_own _ _ _ _ _ (e_vault e ck) OK D); congruence|].
    destruct (N.le_gt_cases (lam (get w1 (e_vault e ck))) (lam (get w2 (e_vault e ck)))) as [|LT]; [lia|].
    destruct (syncs c0) eqn:Y; [|rewrite (quiet_lam _ _ _ _ _ D Y) in LT; lia].
    destruct (syncs_config _ _ _ _ _ D Y) as (c2 & [_ CD]). destruct (prog_ids _ OK) as (_ & _ & PR & _).
    destruct (flow_fine _ _ _ _ _ OK S D (e_vault e ck)) as [_ F]. destruct (F LT) as [E|[(E & RR & _)|(E & _)]]; [congruence| |congruence].
    rewrite RR. apply RP.
  - destruct (rely_owned _ _ _ RL _ O1) as [(A & _ & B)|(Z & _)]; [split; [auto|lia]|lia].
Qed.
Print Assumptions C76_funded.

(** *** Cases *)
Local Ltac calc := vm_compute; reflexivity.
Local Ltac chained := apply tx_end_chain; vm_compute; reflexivity.
(* the config is created in the same transaction as the first validator stake *)
Example C75_case : let w := tx_end (rent 0) 1000000000 base_txs in
  env_ok denv /\ (forall n, 0 < e_rent denv n) /\ chain denv w /\ config_at denv w kcfg (cfg_of w kcfg) /\
  cfg_effective (cfg_of w kcfg) = 1800 /\ own (get w kpda) = e_prog denv.
Proof.
  split; [apply denv_ok|]. split; [apply denv_rents|]. split; [chained|]. split; [split; calc|]. split; calc.
Qed.
(** The vault authority was not funded.  A staker's deposit moves 2,500,000 lamports of
    holder rewards to it; they stay there, and neither staker can unstake or harvest. *)
Definition unfunded : world := tx_end 0 1000000000 (base_txs ++ [[Demo.stake_sol nat1 bob btok bob 100 (10 ^ 21)]]).
Lemma unfunded_chain : chain denv unfunded. Proof. chained. Qed.
Theorem C76_vault_authority_refuted : exists e w ck c, env_ok e /\ (forall n, 0 < e_rent e n) /\ chain e w /\ config_at e w ck c /\
  own (get w (e_vault e ck)) <> e_prog e /\
  (forall tr w' cx a w2, steps e w tr w' -> hh_config a = ck -> run e cx (CHarvestHolderRewards a) w' <> Ok w2) /\
  exists k d, stake_of e w ck k = Some d /\ 0 < staked d /\
    match Demo.unstake k (authority d) btok 100 0 (10 ^ 21) with Call cx c => run e cx c w = Panic | _ => False end.
Proof.
  exists denv, unfunded, kcfg, (cfg_of unfunded kcfg). split; [apply denv_ok|]. split; [apply denv_rents|].
  split; [apply unfunded_chain|]. split; [split; calc|]. split; [vm_compute; discriminate|]. split.
  - intros tr w' cx a w2 ST HC. eapply (C76_harvest_blocked denv unfunded tr w' kcfg (cfg_of unfunded kcfg)); [apply denv_ok| |exact ST|split; calc|calc|calc|exact HC].
    apply (C75_chain denv); [apply denv_ok|apply denv_rents|apply unfunded_chain].
  - exists ksol1, (s_del (sol_of unfunded ksol1)). split; [calc|]. split; calc.
Qed.
Print Assumptions C76_vault_authority_refuted.
Example C76_case : let w := tx_end 0 1000000000 base_txs in chain denv w /\ lam (get w kpda) = 0 /\
  config_at denv w kcfg (cfg_of w kcfg) /\ own (get unfunded kpda) = 0 /\ e_rent denv 0 < lam (get unfunded kpda).
Proof. split; [chained|]. split; [calc|]. split; [split; calc|]. split; calc. Qed.
Example C76_funded_case : let w := tx_end (rent 0) 1000000000 base_txs in chain denv w /\
  own (get w kpda) = e_prog denv /\ 0 < lam (get w kpda).
Proof. split; [chained|]. split; calc. Qed.

(** A hundred lamports of rewards, tokens in the vault to burn, and no wallet: the slash the program accepts is
    refused, and goes through once somebody has funded the wallet. *)
Definition poor (b : N) : world := tx_end (rent 0) b (base_txs ++ [[Pay carol kcfg 100; donate 2500]]).
Lemma poor_chain : chain denv (poor 0).
Proof. unfold poor. chained. Qed.
Definition only (a : act) : list (ctx * call) := match a with Call x c => [(x, c)] | _ => [] end.
Definition is_final (o : outcome) : bool := match o with Final _ => true | _ => false end.
Theorem C77_slash_refused_refuted : exists e w ck k d, env_ok e /\ chain e w /\ stake_of e w ck k = Some d /\
  (exists cx c w', penalty c ck k /\ run e cx c w = Ok w') /\
  forall cx c w', penalty c ck k -> transaction e [(cx, c)] w <> Final w'.
Proof.
  exists denv, (poor 0), kcfg, ksol1, (s_del (sol_of (poor 0) ksol1)). split; [apply denv_ok|].
  pose proof poor_chain as C. split; [exact C|]. split; [calc|]. split.
  - assert (match Demo.slash_sol nat1 bob 10 with Call x c => penalty c kcfg ksol1 /\ match run denv x c (poor 0) with Ok _ => True | _ => False end | _ => False end) as H.
    { split; [split; calc|]. vm_compute. exact Logic.I. }
    cbn [Demo.slash_sol] in H. destruct H as [P H]. match type of H with match ?r with _ => _ end => destruct r as [w'| |] eqn:E; try contradiction end.
    eexists _, _, w'. split; [exact P|exact E].
  - destruct (C75_chain denv (poor 0) denv_ok denv_rents C) as [R S].
    intros cx c w' P. eapply (C77_no_penalty denv cx c (poor 0) kcfg ksol1); [apply denv_ok|exact R|exact S|exact P|calc|calc|split; calc].
Qed.
Print Assumptions C77_slash_refused_refuted.
Example C77_case : chain denv (poor 0) /\ pools_sized denv (poor 0) /\ pending denv (poor 0) kcfg ksol1 = 72 /\
  is_final (transaction denv (only (Demo.slash_sol nat1 bob 10)) (poor 0)) = false /\
  is_final (transaction denv (only (Demo.slash_sol nat1 bob 10)) (poor 1000000000)) = true.
Proof.
  split; [apply poor_chain|]. split; [|split; [calc|split; calc]].
  assert (forallb (fun p : N * account => negb (fst p mod 8 =? 6) || (data_len (dat (snd p)) =? 64)) (map_to_list (poor 0)) = true) as F by calc.
  rewrite forallb_forall in F. intros m. unfold get. destruct (poor 0 !! e_pool denv m) as [a|] eqn:E; [|intros O; discriminate O].
  intros _. apply elem_of_map_to_list, elem_of_list_In, F in E. cbn [fst snd] in E. apply orb_true_iff in E as [E|E]; [exfalso|now apply N.eqb_eq].
  apply negb_true_iff, N.eqb_neq in E. apply E. change (e_pool denv m) with (8 * m + 6).
  rewrite N.add_comm, N.mul_comm, N.mod_add; [reflexivity|discriminate].
Qed.
(* a short wallet may not be paid; one that is left alone does not matter *)
Example C77_short_case :
  is_final (transaction denv (only (Demo.slash_sol nat1 bob 10)) (setl (poor 0) bob 5)) = false /\
  is_final (transaction denv (only (Demo.slash_sol nat1 bob 10)) (setl (poor 1000000000) 99999 5)) = true /\
  lam (get (setl (poor 0) bob 5) bob) = 5 /\ pending denv (setl (poor 0) bob 5) kcfg ksol1 = 72 /\ 5 < e_rent denv 0.
Proof. split; [calc|]. split; [calc|]. split; [calc|]. split; calc. Qed.
