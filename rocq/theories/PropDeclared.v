(** The declared account privileges are enough, and are used, except for two
    reward recipients that are not declared writable. *)
From Verif Require Import Base Types Layout Instr Math External Processor Runtime History Spec SpecWire Declared
  WorldLemmas Effects Handlers Evolve Sane Wf Totals Arith Nets Caps Stakers Deposits Inv Demo Codec Touches.

(** The two accounts paid by an instruction that does not declare them writable:
    the validator stake authority of ValidatorStakeTokens (l.125-129) and the
    staker authority of SolStakerMoveTokens (l.729-734). *)
Definition undeclared_payee (i : instruction) (ks : list pubkey) : list pubkey :=
  match i with
  | IValidatorStakeTokens _ => [key ks 4]
  | ISolStakerMoveTokens _ => [key ks 2]
  | _ => []
  end.

(** Take [n] keys off the list, or find it too short. *)
Ltac take_keys ks H :=
  repeat (destruct ks as [|? ks]; [discriminate H|]; cbn [need require length Nat.leb] in H);
  cbn [bind key nth] in H.
Lemma need_ok n ks u : need n ks = Ok u -> (n <= length ks)%nat.
Proof. intros H. apply require_ok in H. now apply Nat.leb_le. Qed.
Lemma take_n n (ks : list pubkey) : (n <= length ks)%nat -> exists a b, ks = a ++ b /\ length a = n.
Proof. exists (firstn n ks), (skipn n ks). split; [symmetry; apply firstn_skipn|]. rewrite firstn_length. lia. Qed.
Ltac keys_of ks N0 :=
  apply need_ok in N0; let a := fresh in let b := fresh in let L := fresh in
  destruct (take_n _ _ N0) as (a & b & -> & L);
  repeat (destruct a as [|? a]; [discriminate L|]; cbn [length] in L; apply Nat.succ_inj in L);
  destruct a; [|discriminate L]; clear N0 L; cbn [app].
(** Open [accounts_of e ks i = Ok c]. *)
Ltac open_accounts ks H :=
  let N0 := fresh in let u := fresh in
  unfold accounts_of in H; cbv zeta in H; apply bind_ok in H; destruct H as (u & N0 & H); cbv beta in H;
  keys_of ks N0; unfold key in H; cbn [nth] in H; injection H as <-.

Lemma changes_declared e ks i c k : accounts_of e ks i = Ok c -> In k (changes c) ->
  In k (may_write i ks) \/ In k (undeclared_payee i ks).
Proof.
  intros H. destruct i; open_accounts ks H;
    cbn [changes ic_config ic_vault_pda iv_stake st_config st_pool st_ptok st_stake st_authority st_source st_vault_pda
         st_vault st_vhr hh_config hh_pool hh_vhr hh_vault_pda hv_config hv_stake hv_authority sl_config sl_stake
         sl_authority sl_vault sl_mint sa_account uc_config is_stake is_val hs_config hs_stake hs_authority hs_prev
         hs_prev_auth hs_cur hs_cur_auth hs_keeper un_config un_pool un_ptok un_stake un_authority un_vault
         un_vault_pda un_vhr un_dest mv_config mv_authority mv_source mv_dest ov_config ov_stake ov_stake_auth sy_stake
         In app]; unfold may_write, undeclared_payee, key; cbn [at_flag declared writes In nth];
    try (clear; tauto).
  match goal with |- context [if ?b then None else _] => destruct b end; cbn [opt_list In]; clear; tauto.
Qed.

(** ** C48: only declared accounts change *)
Theorem C48_only_declared_change e cx ks i c w w' k :
  accounts_of e ks i = Ok c -> handler e cx c w = Ok w' -> get w' k <> get w k ->
  In k (may_write i ks) \/
  (In k (undeclared_payee i ks) /\
   own (get w' k) = own (get w k) /\ dat (get w' k) = dat (get w k) /\ lam (get w k) < lam (get w' k)).
Proof.
  intros A H NE. apply handler_did in H.
  assert (In k (changes c)) as I.
  { destruct (in_dec N.eq_dec k (changes c)) as [I|I]; auto. exfalso. apply NE.
    now apply (touches_did _ _ _ _ _ H). }
  destruct (in_dec N.eq_dec k (may_write i ks)) as [W|W]; [now left|right].
  destruct (changes_declared _ _ _ _ _ A I) as [W'|P]; [contradiction|]. split; [exact P|].
  assert (own (get w' k) = own (get w k) /\ dat (get w' k) = dat (get w k) /\ lam (get w k) <= lam (get w' k))
    as (X1 & X2 & X3).
  { destruct i; try contradiction; open_accounts ks A; inversion H; subst.
    - eapply staked_gain; [eassumption|]. intros J. apply W. clear - J. revert J.
      unfold may_write. cbn. tauto.
    - eapply moved_gain; [eassumption|]. intros J. apply W. clear - J. revert J.
      unfold may_write. cbn. tauto. }
  repeat split; auto. destruct (N.eq_dec (lam (get w k)) (lam (get w' k))) as [E|E]; [|lia].
  exfalso. apply NE. now apply account_ext.
Qed.
Print Assumptions C48_only_declared_change.

(** With the declared accounts writable (and the two recipients, if they are paid)
    the runtime has nothing to object to. *)
Theorem C48_declared_suffice e cx ks i c w w' :
  accounts_of e ks i = Ok c -> handler e cx c w = Ok w' -> total_lamports w' = total_lamports w ->
  (forall k, In k (may_write i ks) -> writable cx k = true) ->
  (forall k, In k (undeclared_payee i ks) -> lam (get w k) < lam (get w' k) -> writable cx k = true) ->
  run e cx c w = Ok w'.
Proof.
  intros A H T W P. unfold run. rewrite H. cbn [bind]. unfold runtime_check. rewrite T, N.eqb_refl.
  cbn [require bind].
  match goal with |- context [forallb ?f ?l] => assert (forallb f l = true) as -> end; [|reflexivity].
  apply forallb_forall. intros k _. destruct (decide (get w k = get w' k)) as [E|NE].
  - apply orb_true_iff. left. now apply bool_decide_eq_true.
  - apply orb_true_iff. right.
    destruct (C48_only_declared_change _ _ _ _ _ _ _ k A H (not_eq_sym NE)) as [I|(I & _ & _ & L)]; auto.
Qed.
Print Assumptions C48_declared_suffice.

(** The context an instruction built from the declarations runs in. *)
Definition as_declared (i : instruction) (ks extra : list pubkey) (now acc : N) : ctx :=
  Ctx (must_sign i ks) (may_write i ks ++ extra) now None acc.
Definition with_reward : list act := setup ++ [init_sol nat2 vote2 bob 5000; Pay carol kcfg 1000000].
Definition stake_val_keys : list pubkey :=
  [kcfg; kpool; kptok; kval1; alice; btok; bob; kmint; kpda; kvtok; kvhr; e_token denv; e_rewards denv].
Definition move_keys : list pubkey := [kcfg; kvhr; bob; ksol1; ksol2].

(** As declared, topping up a validator with a pending reward is refused by the
    runtime; with its authority writable as well the same instruction goes through. *)
Theorem C48_validator_stake_refuted : exists w,
  reachable denv w /\
  (exists c, accounts_of denv stake_val_keys (IValidatorStakeTokens 10) = Ok c /\
     run denv (as_declared (IValidatorStakeTokens 10) stake_val_keys [] 0 0) c w = Err ReadonlyAccountModified /\
     exists w', run denv (as_declared (IValidatorStakeTokens 10) stake_val_keys [alice] 0 0) c w = Ok w').
Proof.
  exists (at_end with_reward). split; [apply at_end_reachable; vm_compute; reflexivity|].
  exists (CValidatorStakeTokens (stake_accts_of kval1 alice btok bob) 10). split; [reflexivity|]. split; [vm_compute; reflexivity|].
  exists (at_end (with_reward ++
    [Call (as_declared (IValidatorStakeTokens 10) stake_val_keys [alice] 0 0)
          (CValidatorStakeTokens (stake_accts_of kval1 alice btok bob) 10)])).
  apply at_end_run. vm_compute. reflexivity.
Qed.
Print Assumptions C48_validator_stake_refuted.
Theorem C48_move_refuted : exists w,
  reachable denv w /\
  (exists c, accounts_of denv move_keys (ISolStakerMoveTokens 10) = Ok c /\
     run denv (as_declared (ISolStakerMoveTokens 10) move_keys [] 0 0) c w = Err ReadonlyAccountModified /\
     exists w', run denv (as_declared (ISolStakerMoveTokens 10) move_keys [bob] 0 0) c w = Ok w').
Proof.
  exists (at_end with_reward). split; [apply at_end_reachable; vm_compute; reflexivity|].
  exists (CSolStakerMoveTokens (MoveA kcfg kvhr bob ksol1 ksol2) 10). split; [reflexivity|]. split; [vm_compute; reflexivity|].
  exists (at_end (with_reward ++
    [Call (as_declared (ISolStakerMoveTokens 10) move_keys [bob] 0 0)
          (CSolStakerMoveTokens (MoveA kcfg kvhr bob ksol1 ksol2) 10)])).
  apply at_end_run. vm_compute. reflexivity.
Qed.
Print Assumptions C48_move_refuted.

(** A case of the first two theorems: unstaking exactly as declared, with a
    pending reward paid to the writable authority. *)
Definition unstake_keys : list pubkey :=
  [kcfg; kpool; kptok; ksol1; bob; kvtok; kpda; kvhr; kmint; btok; e_token denv; e_rewards denv].
Definition unstake_call : call :=
  CUnstakeTokens (UnstakeA kcfg kpool kptok ksol1 bob kvtok kpda kvhr kmint btok (e_token denv)) 400.
Example C48_case :
  accounts_of denv unstake_keys (IUnstakeTokens 400) = Ok unstake_call /\
  (exists w', run denv (as_declared (IUnstakeTokens 400) unstake_keys [] 9 0) unstake_call (at_end with_reward) = Ok w' /\
     lam (get (at_end with_reward) bob) < lam (get w' bob)) /\
  In bob (may_write (IUnstakeTokens 400) unstake_keys) /\ ~ In kmint (may_write (IUnstakeTokens 400) unstake_keys).
Proof.
  split; [reflexivity|]. split.
  - exists (at_end (with_reward ++ [Call (as_declared (IUnstakeTokens 400) unstake_keys [] 9 0) unstake_call])).
    split; [apply at_end_run; vm_compute; reflexivity|vm_compute; reflexivity].
  - split; [vm_compute; tauto|]. vm_compute. intros H.
    repeat (destruct H as [H|H]; [discriminate|]). contradiction.
Qed.

(** ** C49: signatures are asked for exactly where declared *)
Lemma asks_declared e ks i c : accounts_of e ks i = Ok c -> must_sign i ks = asks c.
Proof. intros H. destruct i; open_accounts ks H; reflexivity. Qed.

(** Success needs every declared signer's signature. *)
Theorem C49_declared_signers_sign e cx ks i c w w' k :
  accounts_of e ks i = Ok c -> handler e cx c w = Ok w' -> In k (must_sign i ks) -> signed cx k = true.
Proof.
  intros A H I. rewrite (asks_declared _ _ _ _ A) in I. apply handler_did in H. eapply asks_signed; eauto.
Qed.
Print Assumptions C49_declared_signers_sign.
(** No other signature makes a difference: two contexts that agree on the declared
    signers give the same result. *)
Theorem C49_other_signatures_irrelevant e cx cx' ks i c w :
  accounts_of e ks i = Ok c ->
  c_now cx' = c_now cx -> c_view cx' = c_view cx -> c_pool_acc cx' = c_pool_acc cx ->
  (forall k, In k (must_sign i ks) -> signed cx' k = signed cx k) ->
  handler e cx' c w = handler e cx c w.
Proof.
  intros A E1 E2 E3 S. rewrite (asks_declared _ _ _ _ A) in S.
  destruct cx' as [sg wr now v acc]. cbn in E1, E2, E3. subst.
  apply (handler_sig e cx c w sg wr). exact S.
Qed.
Print Assumptions C49_other_signatures_irrelevant.
Example C49_case :
  must_sign (IUnstakeTokens 400) unstake_keys = [bob] /\
  handler denv (Ctx [carol] [] 9 None 0) unstake_call (at_end with_reward) = Err MissingRequiredSignature /\
  (exists w', handler denv (Ctx [bob] [] 9 None 0) unstake_call (at_end with_reward) = Ok w').
Proof.
  split; [reflexivity|]. split; [vm_compute; reflexivity|].
  exists (at_end (with_reward ++ [Call (as_declared (IUnstakeTokens 400) unstake_keys [] 9 0) unstake_call])).
  assert (runs (with_reward ++ [Call (as_declared (IUnstakeTokens 400) unstake_keys [] 9 0) unstake_call]) = true) as R
    by (vm_compute; reflexivity).
  apply at_end_run in R as (_ & _ & R). apply run_ok in R as (R & _).
  rewrite <- R. apply (C49_other_signatures_irrelevant denv _ _ unstake_keys (IUnstakeTokens 400)); reflexivity.
Qed.

(** ** C50: the entry point *)
(** The number of accounts an instruction needs. *)
Lemma accounts_enough e ks i : (exists c, accounts_of e ks i = Ok c) <-> (length (declared i) <= length ks)%nat.
Proof.
  split.
  - intros [c H]. destruct i; open_accounts ks H; cbn [declared length]; lia.
  - intros L. destruct i; cbn [declared length] in L; unfold accounts_of, need; cbv zeta;
      rewrite (proj2 (Nat.leb_le _ _) L); cbn [require bind]; eexists; reflexivity.
Qed.
Lemma accounts_few e ks i : (length ks < length (declared i))%nat -> accounts_of e ks i = Err NotEnoughAccountKeys.
Proof.
  intros L. destruct i; cbn [declared length] in L; unfold accounts_of, need; cbv zeta;
    rewrite (proj2 (Nat.leb_gt _ _) L); reflexivity.
Qed.
Lemma accounts_extra e ks i extra : (length (declared i) <= length ks)%nat ->
  accounts_of e (ks ++ extra) i = accounts_of e ks i.
Proof.
  intros L. destruct (take_n _ _ L) as (a & b & -> & La). clear L. rewrite <- app_assoc. revert La.
  destruct i; cbn [declared length]; intros La;
    repeat (destruct a as [|? a]; [discriminate La|]; cbn [length] in La; apply Nat.succ_inj in La);
    (destruct a; [|discriminate La]); reflexivity.
Qed.
Lemma wire_call e ks i c data : wire i data -> accounts_of e ks i = Ok c -> wf_call c.
Proof.
  intros W A. assert (forall n x b, is_le n x b -> x < 256 ^ N.of_nat n) as R by apply is_le_range.
  destruct i; open_accounts ks A; cbn [wf_call]; auto; inversion W; subst;
    repeat match goal with H : is_le ?n ?x ?b |- _ => apply is_le_range in H end;
    try (repeat split; assumption).
Qed.

(** A transaction's instruction either fails and changes nothing, or is a step of
    the histories all theorems speak about. *)
Theorem C50_entry_is_step e cx ks data w w' :
  wf_ctx e cx -> bytes data -> process_instruction e cx ks data w = Ok w' ->
  exists i c, wire i data /\ accounts_of e ks i = Ok c /\ step e w (Do cx c) w'.
Proof.
  intros WC B H. unfold process_instruction in H. stepn H i Ei. stepn H c Ec.
  apply unpack_wire in Ei; auto. exists i, c. split; [auto|]. split; [auto|].
  constructor; auto. eapply wire_call; eauto.
Qed.
Print Assumptions C50_entry_is_step.
(** Every call of the model is reached from bytes. *)
Theorem C50_entry_complete e cx ks i c w :
  instr_in_range i -> accounts_of e ks i = Ok c ->
  exists data, bytes data /\ process_instruction e cx ks data w = run e cx c w.
Proof.
  intros R A. exists (pack i). pose proof (pack_wire i R) as W. split.
  - destruct i as [| | | | | |[]|[]| | | | | | | |]; cbn [pack];
      repeat (apply Forall_cons; split; [vm_compute; reflexivity|]);
      repeat apply Forall_app_2; first [apply le_bytes_bytes|apply Forall_nil_2].
  - unfold process_instruction. rewrite (wire_unpack _ _ W). cbn [bind]. rewrite A. reflexivity.
Qed.
Print Assumptions C50_entry_complete.
(** Too few accounts are refused, further ones ignored. *)
Theorem C50_account_count e cx ks i data extra w : bytes data -> wire i data ->
  ((length ks < length (declared i))%nat -> process_instruction e cx ks data w = Err NotEnoughAccountKeys) /\
  ((length (declared i) <= length ks)%nat ->
     process_instruction e cx (ks ++ extra) data w = process_instruction e cx ks data w).
Proof.
  intros B W. apply wire_unpack in W. unfold process_instruction. rewrite W. cbn [bind]. split; intros L.
  - now rewrite accounts_few.
  - now rewrite accounts_extra.
Qed.
Print Assumptions C50_account_count.
Example C50_case :
  process_instruction denv (cx [bob] 9 None 0) (unstake_keys ++ [carol]) (pack (IUnstakeTokens 400)) (at_end with_reward)
    = run denv (cx [bob] 9 None 0) unstake_call (at_end with_reward) /\
  process_instruction denv (cx [bob] 9 None 0) (tl unstake_keys) (pack (IUnstakeTokens 400)) (at_end with_reward)
    = Err NotEnoughAccountKeys /\
  runs (with_reward ++ [Call (cx [bob] 9 None 0) unstake_call]) = true.
Proof. split; [reflexivity|]. split; [reflexivity|vm_compute; reflexivity]. Qed.
