(** The interface description agrees with the program (C78). *)
From Coq Require Import String.
From Verif Require Import Base Types Layout Instr Math External Processor Runtime History Spec SpecWire Declared
  WorldLemmas Demo Codec Client PropClient Idl SpecIdl.
From Verif Require JsClient.
Local Open Scope string_scope.
Local Open Scope list_scope.
Local Open Scope N_scope.
Arguments N.pow : simpl never.

(** The file's types, completed by the two it leaves out. *)
Definition defs : list (string * idef) := idl_types ++ idl_missing.
Lemma sized_ok n x : x < 256 ^ N.of_nat n -> sized n x = Some (le_bytes n x).
Proof. intros H. unfold sized. now rewrite (proj2 (N.ltb_lt _ _) H). Qed.
Lemma enc_u64 f ds x : x < 2 ^ 64 -> enc (S f) ds TU64 (VNum x) = Some (le_bytes 8 x).
Proof. intros H. apply (sized_ok 8 x H). Qed.
Lemma enc_u16 f ds x : x < 2 ^ 16 -> enc (S f) ds TU16 (VNum x) = Some (le_bytes 2 x).
Proof. intros H. apply (sized_ok 2 x H). Qed.
Lemma enc_key f ds x : x < 2 ^ 256 -> enc (S f) ds TKey (VNum x) = Some (le_bytes 32 x).
Proof. intros H. apply (sized_ok 32 x H). Qed.
Lemma enc_bytes fuel ds l : bytes l -> enc_list (enc (S fuel) ds) (repeat TU8 (length l)) (map VNum l) = Some l.
Proof.
  induction 1 as [|x l X L IH]; [reflexivity|]. cbn [length repeat map enc_list]. rewrite IH. cbn [enc].
  rewrite sized_ok by exact X. cbn [le_bytes app]. rewrite N.mod_small by exact X. reflexivity.
Qed.
Lemma enc_hash f ds x : enc (S (S f)) ds (TArr TU8 32) (bytes_of_hash x) = Some (le_bytes 32 x).
Proof. pose proof (enc_bytes f ds (le_bytes 32 x)) as X. rewrite le_bytes_length in X. apply X, le_bytes_bytes. Qed.
Local Ltac fields := cbn [enc_fields enc_list option_map String.eqb Ascii.eqb Bool.eqb ii_args ii_disc].
Local Ltac instr := unfold idl_data; cbn [ix_name ix_args];
  match goal with |- context [find_instr ?s] => let i := eval vm_compute in (find_instr s) in change (find_instr s) with i end; fields.
Local Ltac enum := match goal with |- context [enc 4 defs (TDef ?s) (VVar ?n ?l)] =>
  let r := eval vm_compute in (find defs s) in
  change (enc 4 defs (TDef s) (VVar n l)) with
    (match r with Some (DNum k) => None | Some (DStruct fs) => None | Some (DEnum vs) => enc_variant (enc 3 defs) vs 0 n l | None => None end : option (list N)) end;
  cbn beta iota; cbn [enc_variant String.eqb Ascii.eqb Bool.eqb]; fields.
(** ** C78: instructions *)
Theorem C78_instruction_data c : args_fit c -> idl_data defs (ix_name c) (ix_args c) = Some (pack (instr_of c)).
Proof.
  intros F. destruct c; cbn [args_fit] in F; try reflexivity;
    try (instr; rewrite enc_u64 by exact F; cbn [option_map]; rewrite app_nil_r; reflexivity).
  - destruct F as (F1 & F2 & F3 & F4 & F5 & F6). instr. rewrite !enc_key, !enc_u64, enc_u16, enc_hash by assumption.
    cbn [option_map]. rewrite app_nil_r. reflexivity.
  - destruct t; reflexivity.
  - instr. destruct f; enum; [rewrite enc_u64 by exact F|rewrite enc_u16 by exact F|rewrite enc_u64 by exact F];
      cbn [option_map]; rewrite !app_nil_r; reflexivity.
Qed.
Print Assumptions C78_instruction_data.
(** The accounts are those the Rust client lists. *)
Theorem C78_instruction_accounts x c : idl_accounts_of (id_prog x) (ix_name c) (given x c) = Some (client_metas x c []).
Proof. destruct c; destruct a; try reflexivity. destruct hs_keeper; reflexivity. Qed.
Print Assumptions C78_instruction_accounts.
(** So whoever builds an instruction from the description alone has the program run it. *)
Theorem C78_instructions_run e cx x c w : id_prog x = e_prog e -> args_fit c -> keeper_of c <> Some (e_prog e) ->
  exists ms data, idl_accounts_of (id_prog x) (ix_name c) (given x c) = Some ms /\
    idl_data defs (ix_name c) (ix_args c) = Some data /\
    process_instruction e cx (map fst ms) data w = run e cx c w.
Proof.
  intros P A K. exists (client_metas x c []), (client_data c). split; [apply C78_instruction_accounts|]. split.
  - rewrite C78_instruction_data by auto. f_equal. destruct c; try reflexivity; [destruct t|destruct f]; reflexivity.
  - apply C59_client_calls; auto.
Qed.
Print Assumptions C78_instructions_run.
(** The privileges are those the program declares. *)
Theorem C78_privileges x c ms : idl_accounts_of (id_prog x) (ix_name c) (given x c) = Some ms ->
  (forall a, c = CHarvestSolStakerRewards a -> hs_keeper a <> None) -> map snd ms = declared (instr_of c).
Proof.
  rewrite C78_instruction_accounts. intros [= <-] K. destruct c; destruct a; try reflexivity.
  destruct hs_keeper; [reflexivity|]. exfalso. now apply (K _ eq_refl).
Qed.
Print Assumptions C78_privileges.
(** Every instruction of the description is one of the program's. *)
Theorem C78_nothing_else i : In i idl_instructions -> exists c, ii_name i = ix_name c /\ nth_error (pack (instr_of c)) 0 = Some (ii_disc i).
Proof.
  assert (Forall (fun i => exists c, ii_name i = ix_name c /\ nth_error (pack (instr_of c)) 0 = Some (ii_disc i)) idl_instructions) as H.
  { assert (forall c i, ii_name i = ix_name c -> nth_error (pack (instr_of c)) 0 = Some (ii_disc i) ->
      exists c, ii_name i = ix_name c /\ nth_error (pack (instr_of c)) 0 = Some (ii_disc i)) as X by eauto.
    unfold idl_instructions. repeat (apply Forall_cons; split); try apply Forall_nil; try exact I.
    all: match goal with |- exists c, ii_name (IInstr ?n _ _ _) = _ /\ _ => idtac end.
    - apply (X (CInitializeConfig (InitConfigA 0 0 0 0 0) 0 0 0 0 0 0)); reflexivity.
    - apply (X (CInitializeValidatorStake (InitValA 0 0 0 0))); reflexivity.
    - apply (X (CValidatorStakeTokens (StakeA 0 0 0 0 0 0 0 0 0 0 0 0) 0)); reflexivity.
    - apply (X (CHarvestHolderRewards (HarvestHolderA 0 0 0 0 0 0 0))); reflexivity.
    - apply (X (CHarvestValidatorRewards (HarvestValA 0 0 0 0))); reflexivity.
    - apply (X (CSlashValidatorStake (SlashA 0 0 0 0 0 0 0 0 0) 0)); reflexivity.
    - apply (X (CSetAuthority (SetAuthA 0 0 0) AuthSlash)); reflexivity.
    - apply (X (CUpdateConfig (UpdateConfigA 0 0) (CooldownTimeSeconds 0))); reflexivity.
    - apply (X (CInitializeSolStakerStake (InitSolA 0 0 0 0 0 0 0))); reflexivity.
    - apply (X (CSolStakerStakeTokens (StakeA 0 0 0 0 0 0 0 0 0 0 0 0) 0)); reflexivity.
    - apply (X (CHarvestSolStakerRewards (HarvestSolA 0 0 0 0 0 0 0 0 0 0 None))); reflexivity.
    - apply (X (CUnstakeTokens (UnstakeA 0 0 0 0 0 0 0 0 0 0 0) 0)); reflexivity.
    - apply (X (CSlashSolStakerStake (SlashA 0 0 0 0 0 0 0 0 0) 0)); reflexivity.
    - apply (X (CSolStakerMoveTokens (MoveA 0 0 0 0 0) 0)); reflexivity.
    - apply (X (CValidatorOverride (OverrideA 0 0 0 0 0) 0)); reflexivity.
    - apply (X (CValidatorSyncAuthority (SyncAuthA 0 0 0))); reflexivity. }
  rewrite Forall_forall in H. intros IN. now apply H, elem_of_list_In.
Qed.
Print Assumptions C78_nothing_else.

(** ** C78: accounts *)
Lemma skip_skip a k (b : list N) : skipn a (skipn k b) = skipn (k + a) b.
Proof. apply drop_drop. Qed.
Lemma number_at n k b : (k + n <= length b)%nat -> number n (skipn k b) = Some (VNum (num_at b k n), skipn (k + n) b).
Proof.
  intros L. unfold number, andthen, read_num, done. rewrite skipn_length. destruct (Nat.leb_spec n (length b - k)); [|lia].
  now rewrite skip_skip.
Qed.
Lemma bytes_at f ds n : forall k b, (k + n <= length b)%nat ->
  dec_list (dec (S f) ds) (repeat TU8 n) (skipn k b) = Some (map VNum (slice b k n), skipn (k + n) b).
Proof.
  induction n as [|n IH]; intros k b L; cbn [repeat dec_list].
  - unfold done. now rewrite Nat.add_0_r.
  - unfold andthen at 1. cbn [dec]. rewrite number_at by lia. unfold andthen. rewrite IH by lia. unfold done. f_equal.
    replace (k + 1 + n)%nat with (k + S n)%nat by lia. f_equal. unfold num_at, slice.
    destruct (skipn k b) as [|x r] eqn:E; [apply (f_equal (@length N)) in E; rewrite skipn_length in E; cbn in E; lia|].
    rewrite <- (skip_skip 1 k b), E. cbn. rewrite N.add_0_r. reflexivity.
Qed.
Lemma arr_at f ds n k b : (k + n <= length b)%nat ->
  dec (S (S f)) ds (TArr TU8 n) (skipn k b) = Some (of_bytes (slice b k n), skipn (k + n) b).
Proof.
  intros L. change (dec (S (S f)) ds (TArr TU8 n)) with (read! l := dec_list (dec (S f) ds) (repeat TU8 n) in done (VList l)).
  unfold andthen. now rewrite bytes_at.
Qed.
Lemma field_at dec nm t ts b k k' v l rest : dec t (skipn k b) = Some (v, skipn k' b) ->
  dec_fields dec ts (skipn k' b) = Some (l, rest) -> dec_fields dec ((nm, t) :: ts) (skipn k b) = Some ((nm, v) :: l, rest).
Proof. intros A B. cbn [dec_fields]. unfold andthen. now rewrite A, B. Qed.
Lemma no_fields dec b : dec_fields dec [] b = Some ([], b).
Proof. reflexivity. Qed.
Lemma dec_u8 f ds : dec (S f) ds TU8 = number 1. Proof. reflexivity. Qed.
Lemma dec_u16 f ds : dec (S f) ds TU16 = number 2. Proof. reflexivity. Qed.
Lemma dec_u64 f ds : dec (S f) ds TU64 = number 8. Proof. reflexivity. Qed.
Lemma dec_key f ds : dec (S f) ds TKey = number 32. Proof. reflexivity. Qed.
Lemma dec_u128 f : dec (S f) defs (TDef "PodU128") = number 16. Proof. reflexivity. Qed.
Lemma dec_null f : dec (S f) defs (TDef "OptionalNonZeroPubkey") = number 32. Proof. reflexivity. Qed.
Local Ltac fld := eapply field_at;
  [rewrite ?dec_u8, ?dec_u16, ?dec_u64, ?dec_key, ?dec_u128, ?dec_null; first [rewrite number_at by lia|rewrite arr_at by lia]; reflexivity|cbn [Nat.add]].
Lemma slice_slice b o n k m : (k + m <= n)%nat -> slice (slice b o n) k m = slice b (o + k) m.
Proof.
  intros L. unfold slice. rewrite skipn_firstn_comm, firstn_firstn, skip_skip, Nat.min_l by lia. reflexivity.
Qed.
Lemma delegation_at f k b : (k + 120 <= length b)%nat ->
  dec (S (S f)) defs (TDef "Delegation") (skipn k b) = Some (delegation_value (dec_delegation (slice b k 120)), skipn (k + 120) b).
Proof.
  intros L. change (dec (S (S f)) defs (TDef "Delegation")) with (read! l := dec_fields (dec (S f) defs)
    [("stakedAmount", TU64); ("effectiveAmount", TU64); ("unstakeCooldown", TU64); ("authority", TKey); ("validatorVote", TKey);
     ("lastSeenHolderRewardsPerToken", TDef "PodU128"); ("lastSeenStakeRewardsPerToken", TDef "PodU128")] in done (VRec l)).
  unfold andthen. erewrite (field_at _ _ _ _ _ k); [|rewrite dec_u64, number_at by lia; reflexivity|].
  2:{ eapply field_at; [rewrite dec_u64, number_at by lia; reflexivity|].
      eapply field_at; [rewrite dec_u64, number_at by lia; reflexivity|].
      eapply field_at; [rewrite dec_key, number_at by lia; reflexivity|].
      eapply field_at; [rewrite dec_key, number_at by lia; reflexivity|].
      eapply field_at; [rewrite dec_u128, number_at by lia; reflexivity|].
      eapply field_at; [rewrite dec_u128, number_at by lia; reflexivity|]. apply no_fields. }
  unfold done, delegation_value, dec_delegation. cbn [staked effective cooldown authority vote last_holder last_stake].
  unfold num_at. rewrite !slice_slice by lia. repeat rewrite <- Nat.add_assoc. cbn [Nat.add]. rewrite Nat.add_0_r. reflexivity.
Qed.
Local Ltac account := unfold idl_read;
  match goal with |- context [find idl_accounts ?s] => let r := eval vm_compute in (find idl_accounts s) in change (find idl_accounts s) with r end;
  cbn beta iota.
(** Any bytes, long enough, read by the description are what the program reads there. *)
Theorem C78_config_data b : (192 <= length b)%nat ->
  idl_read defs "Config" b = Some (config_value (slice b 0 8) (slice b 136 32) (slice b 187 5) (dec_config b)).
Proof.
  intros L. account. unfold andthen. change b with (skipn 0 b) at 1. erewrite (field_at _ _ _ _ _ 0).
  2:{ rewrite arr_at by lia. reflexivity. }
  2:{ cbn [Nat.add]. do 12 fld. apply no_fields. }
  reflexivity.
Qed.
Print Assumptions C78_config_data.
Theorem C78_validator_data b : (144 <= length b)%nat ->
  idl_read defs "ValidatorStake" b = Some (val_value (slice b 0 8) (dec_val b)).
Proof.
  intros L. account. unfold andthen. change b with (skipn 0 b) at 1. erewrite (field_at _ _ _ _ _ 0).
  2:{ rewrite arr_at by lia. reflexivity. }
  2:{ cbn [Nat.add]. eapply field_at; [rewrite delegation_at by lia; reflexivity|cbn [Nat.add]]. do 2 fld. apply no_fields. }
  reflexivity.
Qed.
Print Assumptions C78_validator_data.
Theorem C78_staker_data b : (168 <= length b)%nat ->
  idl_read defs "SolStakerStake" b = Some (sol_value (slice b 0 8) (dec_sol b)).
Proof.
  intros L. account. unfold andthen. change b with (skipn 0 b) at 1. erewrite (field_at _ _ _ _ _ 0).
  2:{ rewrite arr_at by lia. reflexivity. }
  2:{ cbn [Nat.add]. eapply field_at; [rewrite delegation_at by lia; reflexivity|cbn [Nat.add]]. do 2 fld. apply no_fields. }
  reflexivity.
Qed.
Print Assumptions C78_staker_data.
(** The description alone does not suffice: it uses two types it does not define, and no
    account can be read without them. *)
Theorem C78_self_contained_refuted name b : idl_read idl_types name b = None.
Proof.
  unfold idl_read, idl_accounts. cbn [find].
  assert (forall nm t l, (forall r, dec_fields (dec 4 idl_types) l r = None) -> forall r, dec_fields (dec 4 idl_types) ((nm, t) :: l) r = None) as NX.
  { intros nm t l H r. cbn [dec_fields]. unfold andthen. destruct (dec 4 idl_types t r) as [[v r']|]; [now rewrite H|reflexivity]. }
  assert (forall nm t l, (forall r, dec 4 idl_types t r = None) -> forall r, dec_fields (dec 4 idl_types) ((nm, t) :: l) r = None) as HD.
  { intros nm t l H r. cbn [dec_fields]. unfold andthen. now rewrite H. }
  assert (forall nm t l, (forall r, dec_fields (dec 3 idl_types) l r = None) -> forall r, dec_fields (dec 3 idl_types) ((nm, t) :: l) r = None) as NX3.
  { intros nm t l H r. cbn [dec_fields]. unfold andthen. destruct (dec 3 idl_types t r) as [[v r']|]; [now rewrite H|reflexivity]. }
  assert (forall r, dec 4 idl_types (TDef "Delegation") r = None) as D.
  { intros r. change (dec 4 idl_types (TDef "Delegation")) with (read! l := dec_fields (dec 3 idl_types)
      [("stakedAmount", TU64); ("effectiveAmount", TU64); ("unstakeCooldown", TU64); ("authority", TKey); ("validatorVote", TKey);
       ("lastSeenHolderRewardsPerToken", TDef "PodU128"); ("lastSeenStakeRewardsPerToken", TDef "PodU128")] in done (VRec l)).
    unfold andthen. rewrite NX3; [reflexivity|]. do 4 apply NX3. intros r'. reflexivity. }
  unfold andthen at 1.
  destruct (String.eqb "Config" name).
  { rewrite NX; [reflexivity|]. apply HD. reflexivity. }
  destruct (String.eqb "SolStakerStake" name).
  { unfold andthen. rewrite NX; [reflexivity|]. apply HD. exact D. }
  destruct (String.eqb "ValidatorStake" name); [|reflexivity].
  unfold andthen. rewrite NX; [reflexivity|]. apply HD. exact D.
Qed.
Print Assumptions C78_self_contained_refuted.

(** ** C78: errors *)
Theorem C78_errors x :
  map (fun p => (snd (fst p), snd p)) (List.filter (fun p => fst (fst p) =? fst (stake_error_code x)) idl_errors) =
    [(snd (stake_error_code x), JsClient.stake_error_message x)].
Proof. destruct x; vm_compute; reflexivity. Qed.
Print Assumptions C78_errors.

(** *** Cases *)
(* governance raises the cap to 100 percent; a config account of the story *)
Example C78_case : let c := CUpdateConfig (UpdateConfigA kcfg gov) (MaxDeactivationBasisPoints 10000) in
  let x := ClientIds (e_prog denv) 0 (e_rewards denv) (e_token denv) 50 in
  args_fit c /\ keeper_of c <> Some (e_prog denv) /\
  idl_data defs (ix_name c) (ix_args c) = Some [7; 1; 16; 39] /\
  idl_accounts_of (id_prog x) (ix_name c) (given x c) = Some [(kcfg, Write); (gov, Sign)].
Proof. split; [vm_compute; reflexivity|]. split; [discriminate|]. split; vm_compute; reflexivity. Qed.
Example C78_account_case : exists c, dat (get (at_end story) kcfg) = DConfig c /\ (192 <= length (enc_config c))%nat /\
  dec_config (enc_config c) = c /\ cfg_bps c = 5000.
Proof.
  exists (cfg_of (at_end story) kcfg). split; [vm_compute; reflexivity|]. split; [vm_compute; lia|].
  split; vm_compute; reflexivity.
Qed.
