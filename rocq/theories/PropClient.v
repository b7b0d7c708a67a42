(** The client library: built instructions, account readers, error codes (C59, C60, C61). *)
From Coq Require Import String.
From Verif Require Import Base Types Layout Instr Math External Processor Runtime History Spec SpecWire Declared
  WorldLemmas Effects Handlers Evolve Sane Wf Totals Arith Nets Caps Stakers Deposits Inv Demo Codec Touches
  PropDeclared Client.

(** ** C59: what the client builds is what the program runs *)
(** Rust's types: arguments fit, and a keeper is not the program itself. *)
Definition args_fit (c : call) : Prop :=
  match c with
  | CInitializeConfig _ s a cd b y d =>
      s < 2 ^ 256 /\ a < 2 ^ 256 /\ cd < 2 ^ 64 /\ b < 2 ^ 16 /\ y < 2 ^ 64 /\ d < 2 ^ 256
  | CUpdateConfig _ (MaxDeactivationBasisPoints x) => x < 2 ^ 16
  | CUpdateConfig _ (CooldownTimeSeconds x) | CUpdateConfig _ (SyncRewardsLamports x) => x < 2 ^ 64
  | CValidatorStakeTokens _ x | CSlashValidatorStake _ x | CSolStakerStakeTokens _ x | CUnstakeTokens _ x
  | CSlashSolStakerStake _ x | CSolStakerMoveTokens _ x | CValidatorOverride _ x => x < 2 ^ 64
  | _ => True
  end.
Definition keeper_of (c : call) : option pubkey :=
  match c with CHarvestSolStakerRewards a => hs_keeper a | _ => None end.

(** The instruction of a call. *)
Definition instr_of (c : call) : instruction :=
  match c with
  | CInitializeConfig _ s a cd b y d => IInitializeConfig s a cd b y d
  | CInitializeValidatorStake _ => IInitializeValidatorStake
  | CValidatorStakeTokens _ n => IValidatorStakeTokens n
  | CHarvestHolderRewards _ => IHarvestHolderRewards
  | CHarvestValidatorRewards _ => IHarvestValidatorRewards
  | CSlashValidatorStake _ n => ISlashValidatorStake n
  | CSetAuthority _ t => ISetAuthority t
  | CUpdateConfig _ f => IUpdateConfig f
  | CInitializeSolStakerStake _ => IInitializeSolStakerStake
  | CSolStakerStakeTokens _ n => ISolStakerStakeTokens n
  | CHarvestSolStakerRewards _ => IHarvestSolStakerRewards
  | CUnstakeTokens _ n => IUnstakeTokens n
  | CSlashSolStakerStake _ n => ISlashSolStakerStake n
  | CSolStakerMoveTokens _ n => ISolStakerMoveTokens n
  | CValidatorOverride _ n => IValidatorOverrideStakedLamports n
  | CValidatorSyncAuthority _ => IValidatorSyncAuthority
  end.

Lemma client_unpack c : args_fit c -> unpack (client_data c) = Ok (instr_of c).
Proof.
  intros R. assert (client_data c = pack (instr_of c)) as ->.
  { destruct c; try reflexivity; [destruct t|destruct f]; reflexivity. }
  apply wire_unpack, pack_wire. destruct c; try exact R; exact I.
Qed.
Lemma client_accounts e x c rem : id_prog x = e_prog e -> keeper_of c <> Some (e_prog e) ->
  accounts_of e (map fst (client_metas x c rem)) (instr_of c) = Ok c.
Proof.
  intros P K. destruct c; destruct a; try reflexivity.
  cbn. destruct hs_keeper as [k|]; cbn.
  - destruct (N.eqb_spec k (e_prog e)) as [->|_]; [now destruct K|reflexivity].
  - now rewrite P, N.eqb_refl.
Qed.

(** The program parses the built accounts and data as the intended call. *)
Theorem C59_client_calls e cx x c rem w :
  id_prog x = e_prog e -> args_fit c -> keeper_of c <> Some (e_prog e) ->
  process_instruction e cx (map fst (client_metas x c rem)) (client_data c) w = run e cx c w.
Proof.
  intros P A K. unfold process_instruction. rewrite client_unpack by auto. cbn [bind].
  rewrite client_accounts by auto. reflexivity.
Qed.
Print Assumptions C59_client_calls.

(** What the listed privileges amount to when the transaction is executed. *)
Definition ctx_of (ms : list account_meta) (now : N) (vw : option view) (acc : N) : ctx :=
  Ctx (map fst (List.filter (fun m => signs (snd m)) ms)) (map fst (List.filter (fun m => writes (snd m)) ms)) now vw acc.
Lemma ctx_signed ms now vw acc k f : In (k, f) ms -> signs f = true -> signed (ctx_of ms now vw acc) k = true.
Proof.
  intros I F. unfold signed. apply existsb_exists. exists k. split; [|apply N.eqb_refl].
  cbn [c_signers ctx_of]. apply in_map_iff. exists (k, f). split; auto. apply filter_In. auto.
Qed.
Lemma ctx_writable ms now vw acc k f : In (k, f) ms -> writes f = true -> writable (ctx_of ms now vw acc) k = true.
Proof.
  intros I F. unfold writable. apply existsb_exists. exists k. split; [|apply N.eqb_refl].
  cbn [c_writable ctx_of]. apply in_map_iff. exists (k, f). split; auto. apply filter_In. auto.
Qed.

(** Two recipients are listed read-only. *)
Definition readonly_payee (c : call) : list pubkey :=
  match c with
  | CValidatorStakeTokens a _ => [st_authority a]
  | CSolStakerMoveTokens a _ => [mv_authority a]
  | _ => []
  end.
Ltac find_in H := repeat (destruct H as [H|H]; [rewrite H; clear; tauto|]); contradiction.
Lemma client_changes x c rem k : In k (changes c) ->
  In k (readonly_payee c) \/ exists f, In (k, f) (client_metas x c rem) /\ writes f = true.
Proof.
  intros H.
  assert (In k (readonly_payee c) \/
          In (k, Write) (client_metas x c []) \/ In (k, SignWrite) (client_metas x c [])) as [R|[R|R]].
  { destruct c as [a ? ? ? ? ? ?|a|a ?|a|a|a ?|a ?|a ?|a|a ?|a|a ?|a ?|a ?|a ?|a];
      unfold client_metas, new, new_readonly; cbn [changes readonly_payee app In] in H |- *; try solve [find_in H].
    destruct (hs_keeper a); cbn [opt_list app In] in H |- *; find_in H. }
  - now left.
  - right. exists Write. split; auto. unfold client_metas in *. rewrite app_nil_r in R. apply in_app_iff. now left.
  - right. exists SignWrite. split; auto. unfold client_metas in *. rewrite app_nil_r in R. apply in_app_iff. now left.
Qed.
Lemma client_asks x c rem k : In k (asks c) -> exists f, In (k, f) (client_metas x c rem) /\ signs f = true.
Proof.
  intros H.
  assert (In (k, Sign) (client_metas x c []) \/ In (k, SignWrite) (client_metas x c [])) as [R|R].
  { destruct c as [a ? ? ? ? ? ?|a|a ?|a|a|a ?|a ?|a ?|a|a ?|a|a ?|a ?|a ?|a ?|a];
      unfold client_metas, new, new_readonly; cbn [asks app In] in H |- *; solve [find_in H]. }
  - exists Sign. split; auto. unfold client_metas in *. rewrite app_nil_r in R. apply in_app_iff. now left.
  - exists SignWrite. split; auto. unfold client_metas in *. rewrite app_nil_r in R. apply in_app_iff. now left.
Qed.

(** Whatever succeeds in some transaction succeeds, with the same result, as the client builds it: the
    privileges it lists are enough, except for a payment to the two read-only recipients. *)
Theorem C59_client_privileges e cx x c rem w w' :
  id_prog x = e_prog e -> args_fit c -> keeper_of c <> Some (e_prog e) ->
  run e cx c w = Ok w' ->
  (forall k, In k (readonly_payee c) -> lam (get w k) < lam (get w' k) ->
             In (k, Write) (client_metas x c rem)) ->
  let ms := client_metas x c rem in
  process_instruction e (ctx_of ms (c_now cx) (c_view cx) (c_pool_acc cx)) (map fst ms) (client_data c) w = Ok w'.
Proof.
  intros P A K R PY ms. unfold ms at 2. rewrite C59_client_calls by auto.
  apply run_ok in R as (H & _ & T & _).
  pose proof (client_accounts e x c rem P K) as AC.
  assert (handler e (ctx_of ms (c_now cx) (c_view cx) (c_pool_acc cx)) c w = Ok w') as H'.
  { rewrite <- H. apply (C49_other_signatures_irrelevant e cx _ _ _ _ _ AC); try reflexivity.
    intros k I. rewrite (C49_declared_signers_sign _ _ _ _ _ _ _ _ AC H I).
    rewrite (asks_declared _ _ _ _ AC) in I. destruct (client_asks x c rem k I) as (f & IM & F).
    eapply ctx_signed; eauto. }
  unfold run. rewrite H'. cbn [bind]. unfold runtime_check. rewrite T, N.eqb_refl. cbn [require bind].
  match goal with |- context [forallb ?f ?l] => assert (forallb f l = true) as -> end; [|reflexivity].
  apply forallb_forall. intros k _. destruct (decide (get w k = get w' k)) as [E|NE].
  - apply orb_true_iff. left. now apply bool_decide_eq_true.
  - apply orb_true_iff. right.
    destruct (in_dec N.eq_dec k (changes c)) as [I|I].
    2:{ exfalso. apply NE. symmetry. exact (touches_did _ _ _ _ _ (handler_did _ _ _ _ _ H) _ I). }
    destruct (client_changes x c rem k I) as [RP|(f & IM & F)]; [|eapply ctx_writable; eauto].
    destruct (C48_only_declared_change _ _ _ _ _ _ _ k AC H (not_eq_sym NE)) as [MW|(_ & _ & _ & L)].
    + (* also listed writable elsewhere *)
      assert (exists f, In (k, f) ms /\ writes f = true) as (f & IM & F); [|eapply ctx_writable; eauto].
      subst ms. destruct c; try contradiction; destruct RP as [<-|[]]; unfold may_write in MW; cbn in MW |- *.
      * revert MW. clear. intros MW. repeat (destruct MW as [MW|MW]; [exists Write; rewrite MW; tauto|]). contradiction.
      * revert MW. clear. intros MW. repeat (destruct MW as [MW|MW]; [exists Write; rewrite MW; tauto|]). contradiction.
    + eapply ctx_writable; [apply PY; eauto|reflexivity].
Qed.
Print Assumptions C59_client_privileges.
(** A case: the client's unstaking with a pending reward; a harvest without a keeper. *)
Definition demo_ids : client_ids := ClientIds (e_prog denv) 0 (e_rewards denv) (e_token denv) 77.
Example C59_case :
  id_prog demo_ids = e_prog denv /\ args_fit unstake_call /\ keeper_of unstake_call <> Some (e_prog denv) /\
  map fst (client_metas demo_ids unstake_call []) = unstake_keys /\
  (exists cx w', run denv cx unstake_call (at_end with_reward) = Ok w' /\ c_now cx = 9) /\
  (forall k, ~ In k (readonly_payee unstake_call)) /\
  client_data unstake_call = [11; 144; 1; 0; 0; 0; 0; 0; 0].
Proof.
  split; [reflexivity|]. split; [vm_compute; reflexivity|]. split; [discriminate|]. split; [reflexivity|].
  split; [|split; [auto|reflexivity]].
  exists (as_declared (IUnstakeTokens 400) unstake_keys [] 9 0),
         (at_end (with_reward ++ [Call (as_declared (IUnstakeTokens 400) unstake_keys [] 9 0) unstake_call])).
  split; [|reflexivity]. apply at_end_run. vm_compute. reflexivity.
Qed.

(** ** C60: the client's account readers *)
Lemma read_num_le n x b r : is_le n x b -> read_num n (b ++ r) = Some (x, r).
Proof.
  intros H. pose proof (is_le_length _ _ _ H) as L. unfold read_num.
  rewrite (proj2 (Nat.leb_le _ _)) by (rewrite app_length; lia).
  subst n. rewrite firstn_app, Nat.sub_diag, firstn_O, app_nil_r, firstn_all.
  rewrite skipn_app, Nat.sub_diag, skipn_O, skipn_all. rewrite (is_le_num _ _ _ H). reflexivity.
Qed.
Lemma read_bytes_app n (b r : list N) : length b = n -> read_bytes n (b ++ r) = Some (b, r).
Proof.
  intros <-. unfold read_bytes.
  rewrite (proj2 (Nat.leb_le _ _)) by (rewrite app_length; lia).
  rewrite firstn_app, Nat.sub_diag, firstn_O, app_nil_r, firstn_all.
  rewrite skipn_app, Nat.sub_diag, skipn_O, skipn_all. reflexivity.
Qed.
Lemma read_num_inv n b x r : bytes b -> read_num n b = Some (x, r) -> exists p, b = p ++ r /\ is_le n x p /\ bytes r.
Proof.
  intros B H. unfold read_num in H. destruct (n <=? length b)%nat eqn:L; [|discriminate].
  injection H as <- <-. apply Nat.leb_le in L. exists (firstn n b). rewrite <- (firstn_skipn n b) in B.
  apply bytes_app in B as [B1 B2]. split; [symmetry; apply firstn_skipn|]. split; auto.
  apply is_le_intro; auto. rewrite firstn_length. lia.
Qed.
Lemma read_bytes_inv n b x r : bytes b -> read_bytes n b = Some (x, r) -> b = x ++ r /\ length x = n /\ bytes r.
Proof.
  intros B H. unfold read_bytes in H. destruct (n <=? length b)%nat eqn:L; [|discriminate].
  injection H as <- <-. apply Nat.leb_le in L. rewrite <- (firstn_skipn n b) in B.
  apply bytes_app in B as [B1 B2]. split; [symmetry; apply firstn_skipn|]. split; auto. rewrite firstn_length. lia.
Qed.
Ltac nums := repeat (unfold andthen at 1; erewrite read_num_le by eassumption; cbv beta iota).
Ltac unnum H B :=
  repeat (unfold andthen at 1 in H;
    match type of H with
    | match read_num ?n ?b with _ => _ end = _ =>
        let E := fresh in let p := fresh "p" in let r := fresh "r" in let x := fresh "x" in
        let I := fresh "I" in let E' := fresh in
        destruct (read_num n b) as [[x r]|] eqn:E; [|discriminate H];
        apply (read_num_inv _ _ _ _ B) in E; clear B; destruct E as (p & E' & I & B); subst b
    end).
Lemma read_delegation_wire d b r : wire_del d b -> read_delegation (b ++ r) = Some (d, r).
Proof. destruct 1. unfold read_delegation. rewrite <- !app_assoc. nums. unfold done. destruct d; reflexivity. Qed.
Lemma read_delegation_inv d b r : bytes b -> read_delegation b = Some (d, r) ->
  exists p, b = p ++ r /\ wire_del d p /\ bytes r.
Proof.
  intros B H. unfold read_delegation in H. unnum H B. injection H as <- <-.
  eexists. split; [|split; [|exact B]]; [|constructor; eassumption]. now rewrite <- !app_assoc.
Qed.

(** Reading gives the stored fields, whatever follows them, and only them. *)
Theorem C60_config_reader b c : bytes b ->
  (from_bytes read_config b = Some (disc_config, c) <-> exists p q, b = p ++ q /\ wire_config c p).
Proof.
  intros B. split.
  - intros H. unfold from_bytes in H. destruct (read_config b) as [[y r]|] eqn:E; [|discriminate].
    injection H as ->. unfold read_config in E. unfold andthen at 1 in E.
    destruct (read_bytes 8 b) as [[d r0]|] eqn:E0; [|discriminate].
    apply (read_bytes_inv _ _ _ _ B) in E0 as (-> & L & B'). clear B. unnum E B'.
    injection E as -> <- <-. eexists _, _. split; [|constructor; eassumption]. now rewrite <- !app_assoc.
  - intros (p & q & -> & W). destruct W. unfold from_bytes, read_config. rewrite <- !app_assoc.
    unfold andthen at 1. rewrite read_bytes_app by reflexivity. nums. unfold done. destruct c; reflexivity.
Qed.
Print Assumptions C60_config_reader.
Theorem C60_validator_reader b v : bytes b ->
  (from_bytes read_val b = Some (disc_val, v) <-> exists p q, b = p ++ q /\ wire_val v p).
Proof.
  intros B. split.
  - intros H. unfold from_bytes in H. destruct (read_val b) as [[y r]|] eqn:E; [|discriminate].
    injection H as ->. unfold read_val in E. unfold andthen at 1 in E.
    destruct (read_bytes 8 b) as [[d r0]|] eqn:E0; [|discriminate].
    apply (read_bytes_inv _ _ _ _ B) in E0 as (-> & L & B'). clear B. unfold andthen at 1 in E.
    destruct (read_delegation r0) as [[dl r1]|] eqn:E1; [|discriminate].
    apply (read_delegation_inv _ _ _ B') in E1 as (pd & -> & WD & B). clear B'. unnum E B.
    injection E as -> <- <-. eexists _, _. split; [|constructor; eassumption]. now rewrite <- !app_assoc.
  - intros (p & q & -> & W). destruct W. unfold from_bytes, read_val. rewrite <- !app_assoc.
    unfold andthen at 1. rewrite read_bytes_app by reflexivity.
    unfold andthen at 1. rewrite (read_delegation_wire _ _ _ H). nums. unfold done. destruct v; reflexivity.
Qed.
Print Assumptions C60_validator_reader.
Theorem C60_staker_reader b s : bytes b ->
  (from_bytes read_sol b = Some (disc_sol, s) <-> exists p q, b = p ++ q /\ wire_sol s p).
Proof.
  intros B. split.
  - intros H. unfold from_bytes in H. destruct (read_sol b) as [[y r]|] eqn:E; [|discriminate].
    injection H as ->. unfold read_sol in E. unfold andthen at 1 in E.
    destruct (read_bytes 8 b) as [[d r0]|] eqn:E0; [|discriminate].
    apply (read_bytes_inv _ _ _ _ B) in E0 as (-> & L & B'). clear B. unfold andthen at 1 in E.
    destruct (read_delegation r0) as [[dl r1]|] eqn:E1; [|discriminate].
    apply (read_delegation_inv _ _ _ B') in E1 as (pd & -> & WD & B). clear B'. unnum E B.
    injection E as -> <- <-. eexists _, _. split; [|constructor; eassumption]. now rewrite <- !app_assoc.
  - intros (p & q & -> & W). destruct W. unfold from_bytes, read_sol. rewrite <- !app_assoc.
    unfold andthen at 1. rewrite read_bytes_app by reflexivity.
    unfold andthen at 1. rewrite (read_delegation_wire _ _ _ H). nums. unfold done. destruct s; reflexivity.
Qed.
Print Assumptions C60_staker_reader.

(** The readers do not check what kind of account they read: every SOL staker stake also reads as a validator
    stake, with the staker's delegation and SOL and part of the native stake's address as the minimum. *)
Lemma le_bytes_split m : forall n x, le_bytes (n + m) x = le_bytes n x ++ le_bytes m (x / 256 ^ N.of_nat n).
Proof.
  induction n; intros x.
  - cbn [Nat.add le_bytes app]. rewrite N.pow_0_r, N.div_1_r. reflexivity.
  - cbn [Nat.add le_bytes app]. f_equal. rewrite IHn. f_equal.
    rewrite Nat2N.inj_succ, N.pow_succ_r by lia. rewrite N.div_div by (try apply N.pow_nonzero; lia). reflexivity.
Qed.
Lemma le_bytes_mod n : forall x, le_bytes n (x mod 256 ^ N.of_nat n) = le_bytes n x.
Proof.
  induction n; intros x; [reflexivity|]. cbn [le_bytes].
  rewrite Nat2N.inj_succ, N.pow_succ_r by lia.
  rewrite N.mod_mul_r by (try apply N.pow_nonzero; lia).
  f_equal.
  - rewrite N.mul_comm, N.mod_add by lia. apply N.mod_mod. lia.
  - rewrite N.mul_comm, N.div_add by lia. rewrite N.div_small by (apply N.mod_lt; lia). apply IHn.
Qed.
Theorem C60_reader_checks_kind_refuted s : sol_in_range s ->
  from_bytes read_val (enc_sol s) =
    Some (disc_sol, VStake (s_del s) (s_lamports s) (s_native s mod 2 ^ 64)).
Proof.
  intros (D & L & NR). unfold from_bytes, read_val, enc_sol.
  unfold andthen at 1. rewrite read_bytes_app by reflexivity.
  unfold andthen at 1. rewrite (read_delegation_wire _ _ _ (enc_del_wire _ D)).
  unfold andthen at 1. rewrite (read_num_le 8 (s_lamports s)) by (now apply is_le_bytes).
  change 32%nat with (8 + 24)%nat. rewrite le_bytes_split.
  unfold andthen at 1. rewrite (read_num_le 8 (s_native s mod 2 ^ 64)); [reflexivity|].
  change (2 ^ 64) with (256 ^ N.of_nat 8). rewrite <- le_bytes_mod. apply is_le_bytes. apply N.mod_lt. discriminate.
Qed.
Print Assumptions C60_reader_checks_kind_refuted.
Definition some_del : delegation := Del 5 4 0 3 2 1 0.
Example C60_case : sol_in_range (SStake some_del 9 (2 ^ 64 + 7)) /\
  bytes (enc_sol (SStake some_del 9 (2 ^ 64 + 7))) /\
  from_bytes read_sol (enc_sol (SStake some_del 9 (2 ^ 64 + 7)) ++ [1; 2]) = Some (disc_sol, SStake some_del 9 (2 ^ 64 + 7)) /\
  from_bytes read_val (enc_sol (SStake some_del 9 (2 ^ 64 + 7))) = Some (disc_sol, VStake some_del 9 7).
Proof.
  split; [vm_compute; repeat split|]. split; [vm_compute; repeat constructor|]. split; vm_compute; reflexivity.
Qed.

(** An unset authority (all zero) reads as none, a set one as itself. *)
Theorem C60_nullable k o :
  (nullable_value k = None <-> k = 0) /\ (forall x, nullable_value k = Some x <-> k = x /\ x <> 0) /\
  (o <> Some 0 -> nullable_value (nullable_from o) = o).
Proof.
  unfold nullable_value, nullable_from. split; [|split].
  - destruct (N.eqb_spec k 0); split; congruence.
  - intros x. destruct (N.eqb_spec k 0); split; intros; try discriminate; destruct_and?; intuition congruence.
  - intros H. destruct o as [x|]; [|reflexivity]. destruct (N.eqb_spec x 0); congruence.
Qed.
Print Assumptions C60_nullable.

(** ** C61: error codes *)
(** The client names every custom error of the program correctly, and different errors have different codes. *)
Theorem C61_error_codes x y :
  client_error (fst (stake_error_code x)) = Some (snd (stake_error_code x)) /\
  (fst (stake_error_code x) = fst (stake_error_code y) -> x = y) /\
  (snd (stake_error_code x) = snd (stake_error_code y) -> x = y) /\
  NoDup client_errors.
Proof.
  split; [destruct x; reflexivity|].
  split; [destruct x, y; intros H; first [reflexivity|discriminate H]|].
  split; [destruct x, y; intros H; first [reflexivity|discriminate H]|].
  apply (bool_decide_unpack _). vm_compute. exact I.
Qed.
Print Assumptions C61_error_codes.
Example C61_case : client_error 14 = Some "ActiveUnstakeCooldown"%string /\ client_error 26 = None.
Proof. split; reflexivity. Qed.
