(** The Rust client's builders (C80). *)
From Coq Require Import String Ascii.
From Verif Require Import Base Types Layout Instr Math External Processor Runtime History Spec SpecWire Declared
  WorldLemmas Demo Codec Client PropClient Idl SpecIdl RustBuild SpecBuild.
Local Open Scope string_scope.
Local Open Scope list_scope.
Local Open Scope N_scope.

(** ** Setters *)
Lemma last_of_app {A} (l r : list (string * A)) n : last_of (l ++ r) n = match last_of r n with Some v => Some v | None => last_of l n end.
Proof. induction l as [|[m v] l IH]; cbn [app last_of]; [now destruct (last_of r n)|]. rewrite IH. now destruct (last_of r n). Qed.
Lemma last_of_one {A} (m n : string) (v : A) : last_of [(m, v)] n = if String.eqb m n then Some v else None.
Proof. reflexivity. Qed.
Lemma upd_eq {A} (f : string -> A) n v m : upd f n v m = if String.eqb n m then v else f m.
Proof. unfold upd. now rewrite String.eqb_sym. Qed.
Lemma settings_state l b : let b' := fold_left set l b in
  (forall n, bs_acc b' n = match last_of (account_settings l) n with Some v => v | None => bs_acc b n end) /\
  (forall n, bs_arg b' n = match last_of (arg_settings l) n with Some v => Some v | None => bs_arg b n end) /\
  bs_rest b' = bs_rest b ++ extra l.
Proof.
  revert b. induction l as [|s l IH]; intros b b'; [subst b'; cbn; repeat split; auto; now rewrite app_nil_r|].
  subst b'. cbn [fold_left]. destruct (IH (set b s)) as (A & B & C).
  unfold account_settings, arg_settings, extra in *. cbn [flat_map]. repeat split.
  - intros n. rewrite A, last_of_app. destruct (last_of _ n); [reflexivity|]. destruct s; cbn [set bs_acc]; try reflexivity;
      rewrite upd_eq, last_of_one; now destruct (String.eqb _ n).
  - intros n. rewrite B, last_of_app. destruct (last_of _ n); [reflexivity|]. destruct s; cbn [set bs_arg]; try reflexivity;
      rewrite upd_eq, last_of_one; now destruct (String.eqb _ n).
  - rewrite C. destruct s; cbn [set bs_rest]; try reflexivity; now rewrite <- app_assoc.
Qed.
Lemma cpi_settings_state l b : let b' := fold_left cpi_set l b in
  (forall n, cs_acc b' n = match last_of (cpi_account_settings l) n with Some v => v | None => cs_acc b n end) /\
  (forall n, cs_arg b' n = match last_of (cpi_arg_settings l) n with Some v => Some v | None => cs_arg b n end) /\
  cs_rest b' = cs_rest b ++ cpi_extra l.
Proof.
  revert b. induction l as [|s l IH]; intros b b'; [subst b'; cbn; repeat split; auto; now rewrite app_nil_r|].
  subst b'. cbn [fold_left]. destruct (IH (cpi_set b s)) as (A & B & C).
  unfold cpi_account_settings, cpi_arg_settings, cpi_extra in *. cbn [flat_map]. repeat split.
  - intros n. rewrite A, last_of_app. destruct (last_of _ n); [reflexivity|]. destruct s; cbn [cpi_set cs_acc]; try reflexivity;
      rewrite upd_eq, last_of_one; now destruct (String.eqb _ n).
  - intros n. rewrite B, last_of_app. destruct (last_of _ n); [reflexivity|]. destruct s; cbn [cpi_set cs_arg]; try reflexivity;
      rewrite upd_eq, last_of_one; now destruct (String.eqb _ n).
  - rewrite C. destruct s; cbn [cpi_set cs_rest]; try reflexivity; now rewrite <- app_assoc.
Qed.
Lemma builder_state l : let b := fold_left set l builder_new in
  (forall n, bs_acc b n = chosen (account_settings l) n) /\ (forall n, bs_arg b n = last_of (arg_settings l) n) /\ bs_rest b = extra l.
Proof.
  destruct (settings_state l builder_new) as (A & B & C). repeat split; auto. intros n. rewrite B. now destruct (last_of _ n).
Qed.
Lemma cpi_state l : let b := fold_left cpi_set l cpi_new in
  (forall n, cs_acc b n = chosen (cpi_account_settings l) n) /\ (forall n, cs_arg b n = last_of (cpi_arg_settings l) n) /\ cs_rest b = cpi_extra l.
Proof.
  destruct (cpi_settings_state l cpi_new) as (A & B & C). repeat split; auto. intros n. rewrite B. now destruct (last_of _ n).
Qed.

(** ** Instructions *)
Local Ltac snakes H := repeat match type of H with context [snake ?s] => let v := eval vm_compute in (snake s) in change (snake s) with v in H end.
Local Ltac facts := repeat match goal with
  | H : Forall _ (_ :: _) |- _ => apply Forall_cons in H as [? H]
  | H : Forall _ [] |- _ => clear H
  end;
  repeat match goal with H : context [snake ?s] |- _ => let v := eval vm_compute in (snake s) in change (snake s) with v in H end.
Lemma fill_some x acc n s r k : acc n = Some k ->
  fill x acc ((n, s) :: r) = (let* rest := fill x acc r in Ok ((n, Some k) :: rest)).
Proof. intros E. cbn [fill]. rewrite E. now destruct s. Qed.
Lemma fill_default x acc n a r : acc n = None \/ acc n = Some (literal x a) ->
  fill x acc ((n, Default a) :: r) = (let* rest := fill x acc r in Ok ((n, Some (literal x a)) :: rest)).
Proof. intros [E|E]; cbn [fill]; now rewrite E. Qed.
Lemma fill_none x acc n r : acc n = None -> fill x acc ((n, Maybe) :: r) = (let* rest := fill x acc r in Ok ((n, None) :: rest)).
Proof. intros E. cbn [fill]. now rewrite E. Qed.
Lemma borsh_some args n r v : args n = Some v -> borsh_args args (n :: r) = (let* rest := borsh_args args r in Ok (borsh v ++ rest)).
Proof. intros E. cbn [borsh_args]. now rewrite E. Qed.
Local Ltac absent := let H := fresh in intros H; cbn in H; repeat destruct H as [H|H]; try discriminate H; exact H.
Local Ltac filled A := repeat first
  [ erewrite fill_some by (rewrite A; eassumption)
  | rewrite fill_default by (rewrite A; match goal with H : ~ _ -> _ |- _ => apply H; absent end)
  | rewrite fill_none by (rewrite A; match goal with H : ~ _ -> _ |- _ => apply H; absent end) ].
Local Ltac argued B := repeat (erewrite borsh_some by (rewrite B; eassumption)).
(** Whatever the order and number of calls, an instruction that was asked for is built. *)
Theorem C80_builder x c l : asks x c (account_settings l) (arg_settings l) ->
  exists i, find_builder (ix_name c) = Some i /\
    builder_instruction x i (fold_left set l builder_new) = Ok (client_metas x c (extra l), client_data c).
Proof.
  destruct (builder_state l) as (A & B & C). set (b := fold_left set l builder_new) in *. clearbody b.
  set (acc := account_settings l) in *. set (arg := arg_settings l) in *. set (rest := extra l) in *. clearbody acc arg rest. clear l.
  intros (N & W & K & G). unfold well_known in W. destruct b as [ba bg br]. cbn [bs_acc bs_arg bs_rest] in *. subst br.
  destruct c; destruct a; [..|destruct hs_keeper as [kp|]|idtac|idtac|idtac|idtac|idtac]; (eexists; split; [reflexivity|]); unfold builder_instruction;
    cbn [named well_known rust_args map fst app hs_keeper] in N, W, K, G; cbn [rb_fill rb_args rb_metas rb_disc bs_acc bs_arg bs_rest]; facts;
    filled A; argued B; cbn [borsh_args bind borsh]; rewrite ?app_nil_r; reflexivity.
Qed.
Print Assumptions C80_builder.
Theorem C80_builder_runs e cx x c l w : asks x c (account_settings l) (arg_settings l) ->
  id_prog x = e_prog e -> args_fit c -> keeper_of c <> Some (e_prog e) ->
  exists i ms data, find_builder (ix_name c) = Some i /\
    builder_instruction x i (fold_left set l builder_new) = Ok (ms, data) /\
    process_instruction e cx (map fst ms) data w = run e cx c w.
Proof.
  intros A P F K. destruct (C80_builder _ _ _ A) as (i & FI & B). exists i, (client_metas x c (extra l)), (client_data c).
  split; [exact FI|]. split; [exact B|]. now apply C59_client_calls.
Qed.
Print Assumptions C80_builder_runs.

(** Without one of the accounts or arguments the builder panics, whatever else is set;
    the token program and the keeper may be left out. *)
Lemma fill_ok x acc l : (exists r, fill x acc l = Ok r) \/ fill x acc l = Panic.
Proof.
  induction l as [|[n s] l IH]; cbn [fill]; [eauto|]. destruct s, (acc n); auto; destruct IH as [[r ->]| ->]; cbn [bind]; eauto.
Qed.
Lemma fill_panic x acc l n : In (n, Must) l -> acc n = None -> fill x acc l = Panic.
Proof.
  intros I Z. induction l as [|[m s] l IH]; [destruct I|]. destruct I as [[= -> ->]|I]; cbn [fill]; [now rewrite Z|]. rewrite (IH I).
  now destruct s, (acc m).
Qed.
Lemma borsh_panic args l n : In n l -> args n = None -> borsh_args args l = Panic.
Proof.
  intros I Z. induction l as [|m l IH]; [destruct I|]. destruct I as [->|I]; cbn [borsh_args]; [now rewrite Z|]. rewrite (IH I). now destruct (args m).
Qed.
Local Ltac in_fill := repeat first [left; reflexivity|right].
Theorem C80_missing x c l n :
  (In n (map fst (named x c)) /\ n <> "tokenProgram" /\ n <> "keeperRecipient" /\ chosen (account_settings l) (snake n) = None) \/
  (In n (map fst (rust_args c)) /\ last_of (arg_settings l) n = None) ->
  exists i, find_builder (ix_name c) = Some i /\ builder_instruction x i (fold_left set l builder_new) = Panic.
Proof.
  destruct (builder_state l) as (A & B & _). set (b := fold_left set l builder_new) in *. clearbody b.
  set (acc := account_settings l) in *. set (arg := arg_settings l) in *. clearbody acc arg. clear l.
  intros [(I & T & K & Z)|(I & Z)].
  - assert (exists i, find_builder (ix_name c) = Some i /\ In (snake n, Must) (rb_fill i)) as (i & F & M).
    { destruct c; destruct a; (eexists; split; [reflexivity|]); cbn [named map fst app Processor.hs_keeper] in I; cbn [rb_fill];
        try match type of I with context [match ?k with Some _ => _ | None => _ end] => is_var k; destruct k end; cbn [named map fst app] in I;
        repeat (destruct I as [<-|I]; [first [now elim T|now elim K|in_fill]|]); destruct I. }
    exists i. split; [exact F|]. unfold builder_instruction. rewrite (fill_panic _ _ _ _ M); [reflexivity|]. now rewrite A.
  - assert (exists i, find_builder (ix_name c) = Some i /\ In n (rb_args i)) as (i & F & M).
    { destruct c; (eexists; split; [reflexivity|]); cbn [rust_args map fst] in I; cbn [rb_args];
        repeat (destruct I as [<-|I]; [in_fill|]); destruct I. }
    exists i. split; [exact F|]. unfold builder_instruction. destruct (fill_ok x (bs_acc b) (rb_fill i)) as [[r ->]| ->]; [|reflexivity].
    cbn [bind]. rewrite (borsh_panic _ _ _ M); [reflexivity|]. now rewrite B.
Qed.
Print Assumptions C80_missing.

(** ** Calls from other programs: the same instruction, and every account of it handed over.
    The flags of remaining accounts are used in the opposite order. *)
Theorem C80_cpi x program c l : asks x c (cpi_account_settings l) (cpi_arg_settings l) ->
  Forall (fun n => chosen (cpi_account_settings l) (snake n) <> None) (needs c) ->
  exists i ms infos, find_builder (ix_name c) = Some i /\
    cpi_invoke x program i (fold_left cpi_set l cpi_new) = Ok (ms, client_data c, infos) /\
    ms = client_metas x c (map (fun '(k, w, s) => documented (k, s, w)) (cpi_extra l)) /\
    (program = id_prog x -> forall k f, In (k, f) ms -> In k infos).
Proof.
  destruct (cpi_state l) as (A & B & C). set (b := fold_left cpi_set l cpi_new) in *. clearbody b.
  set (acc := cpi_account_settings l) in *. set (arg := cpi_arg_settings l) in *. set (rest := cpi_extra l) in *. clearbody acc arg rest. clear l.
  intros (N & W & K & G) D. unfold well_known in W. destruct b as [ba bg br]. cbn [cs_acc cs_arg cs_rest] in *. subst br.
  assert (map (fun '(k, p, q) => meta_of k p q) rest = map (fun '(k, w, s) => documented (k, s, w)) rest) as RE.
  { apply map_ext. intros [[k p] q]. unfold meta_of, documented, new, new_readonly. now destruct p, q. }
  assert (forall k f, In (k, f) (map (fun '(k, w, s) => documented (k, s, w)) rest) -> In k (map (fun '(k, _, _) => k) rest)) as RI.
  { intros k f I. apply in_map_iff in I as ([[k' p] q] & E & I). cbn in E. injection E as -> _. apply in_map_iff. now exists (k, p, q). }
  assert (forall n k, chosen acc n <> None -> (chosen acc n = None \/ chosen acc n = Some k) -> chosen acc n = Some k) as SET by (clear; intros n k NE [E|E]; [now elim NE|exact E]).
  destruct c; destruct a; [..|destruct hs_keeper as [kp|]|idtac|idtac|idtac|idtac|idtac]; (do 3 eexists; split; [reflexivity|]); unfold cpi_invoke;
    cbn [named map fst app hs_keeper] in N, W, K, G; cbn [rust_args] in G; unfold needs in D; cbn [rb_cpi_fill rb_args rb_cpi_metas rb_disc cs_acc cs_arg cs_rest]; facts;
    repeat first
    [ erewrite fill_some by (rewrite A; first [eassumption|apply SET; [assumption|match goal with H : ~ _ -> _ |- _ => apply H; absent end]])
    | rewrite fill_none by (rewrite A; match goal with H : ~ _ -> _ |- _ => apply H; absent end) ];
    argued B; cbn [borsh_args bind borsh fill]; rewrite ?app_nil_r;
    (split; [reflexivity|]); rewrite RE; (split; [reflexivity|]);
    clear - RI; intros -> k fl I; (apply in_app_iff in I as [I|I]; [|apply RI in I; apply in_cons, in_app_iff; now right]);
    clear RI; apply (in_map fst) in I; cbn in I; cbn;
    repeat (destruct I as [<-|I]; [in_fill|]); destruct I.
Qed.
Print Assumptions C80_cpi.
(** The documentation of [add_remaining_account] has it the other way round. *)
Theorem C80_remaining_refuted : ~ (forall x program c l i ms data infos,
  find_builder (ix_name c) = Some i -> cpi_invoke x program i (fold_left cpi_set l cpi_new) = Ok (ms, data, infos) ->
  ms = client_metas x c (map documented (cpi_extra l))).
Proof.
  intros H. pose (c := CUpdateConfig (UpdateConfigA 10 11) (CooldownTimeSeconds 5)).
  pose (l := [CpiAccount "config" 10; CpiAccount "config_authority" 11; CpiArg "config_field" (RField (CooldownTimeSeconds 5)); CpiRemaining 12 true false]).
  specialize (H (ClientIds 1 2 3 4 5) 1 c l _ _ _ _ eq_refl eq_refl). vm_compute in H. discriminate H.
Qed.
Print Assumptions C80_remaining_refuted.
Theorem C80_cpi_runs e cx x c l w : asks x c (cpi_account_settings l) (cpi_arg_settings l) ->
  Forall (fun n => chosen (cpi_account_settings l) (snake n) <> None) (needs c) ->
  id_prog x = e_prog e -> args_fit c -> keeper_of c <> Some (e_prog e) ->
  exists i ms data infos, find_builder (ix_name c) = Some i /\
    cpi_invoke x (id_prog x) i (fold_left cpi_set l cpi_new) = Ok (ms, data, infos) /\
    (forall k f, In (k, f) ms -> In k infos) /\
    process_instruction e cx (map fst ms) data w = run e cx c w.
Proof.
  intros A D P F K. destruct (C80_cpi x (id_prog x) c l A D) as (i & ms & infos & FI & B & E & I).
  exists i, ms, (client_data c), infos. split; [exact FI|]. split; [exact B|]. split; [now apply I|]. subst ms. now apply C59_client_calls.
Qed.
Print Assumptions C80_cpi_runs.
(** Here nothing has a default: well-known accounts must be given too. *)
Theorem C80_cpi_missing x program c l n :
  (In n (map fst (named x c) ++ needs c) /\ n <> "keeperRecipient" /\ chosen (cpi_account_settings l) (snake n) = None) \/
  (In n (map fst (rust_args c)) /\ last_of (cpi_arg_settings l) n = None) ->
  exists i, find_builder (ix_name c) = Some i /\ cpi_invoke x program i (fold_left cpi_set l cpi_new) = Panic.
Proof.
  destruct (cpi_state l) as (A & B & _). set (b := fold_left cpi_set l cpi_new) in *. clearbody b.
  set (acc := cpi_account_settings l) in *. set (arg := cpi_arg_settings l) in *. clearbody acc arg. clear l.
  intros [(I & K & Z)|(I & Z)].
  - assert (exists i, find_builder (ix_name c) = Some i /\ In (snake n, Must) (rb_cpi_fill i)) as (i & F & M).
    { destruct c; destruct a; (eexists; split; [reflexivity|]); cbn [named needs map fst app Processor.hs_keeper] in I; cbn [rb_cpi_fill];
        try match type of I with context [match ?k with Some _ => _ | None => _ end] => is_var k; destruct k end; cbn [named map fst app] in I;
        repeat (destruct I as [<-|I]; [first [now elim K|in_fill]|]); destruct I. }
    exists i. split; [exact F|]. unfold cpi_invoke. rewrite (fill_panic _ _ _ _ M); [reflexivity|]. now rewrite A.
  - assert (exists i, find_builder (ix_name c) = Some i /\ In n (rb_args i)) as (i & F & M).
    { destruct c; (eexists; split; [reflexivity|]); cbn [rust_args map fst] in I; cbn [rb_args];
        repeat (destruct I as [<-|I]; [in_fill|]); destruct I. }
    exists i. split; [exact F|]. unfold cpi_invoke. destruct (fill_ok x (cs_acc b) (rb_cpi_fill i)) as [[r ->]| ->]; [|reflexivity].
    cbn [bind]. rewrite (borsh_panic _ _ _ M); [reflexivity|]. now rewrite B.
Qed.
Print Assumptions C80_cpi_missing.

(* A stake instruction set up out of order, with one account corrected and the token program left out. *)
Definition demo_ids : client_ids := ClientIds 1 2 3 4 5.
Definition demo_call : call := CValidatorStakeTokens (StakeA 10 11 12 13 14 15 16 17 18 19 20 4) 500.
Definition demo_setters : list setter :=
  [SetAccount "vault" 99; SetArg "amount" (RU64 500); SetAccount "mint" 17; SetAccount "rewards_program" 3;
   SetAccount "holder_rewards_pool" 11; SetAccount "holder_rewards_pool_token_account" 12; SetAccount "validator_stake" 13;
   SetAccount "validator_stake_authority" 14; SetAccount "source_token_account" 15; SetAccount "source_token_account_authority" 16;
   AddRemaining (77, Read); SetAccount "vault_pda" 18; SetAccount "vault" 19; SetAccount "vault_holder_rewards" 20; SetAccount "config" 10;
   SetAccount "token_program" 4].
Definition demo_cpi : list cpi_setter :=
  flat_map (fun s => match s with SetAccount n k => [CpiAccount n k] | SetArg n v => [CpiArg n v] | _ => [] end) demo_setters ++ [CpiRemaining 77 true false].
Local Ltac allof := repeat (apply Forall_cons; split); try apply Forall_nil; try (vm_compute; reflexivity).
Example C80_case :
  asks demo_ids demo_call (account_settings demo_setters) (arg_settings demo_setters) /\
  args_fit demo_call /\ keeper_of demo_call <> Some 1 /\
  asks demo_ids demo_call (cpi_account_settings demo_cpi) (cpi_arg_settings demo_cpi) /\
  Forall (fun n => chosen (cpi_account_settings demo_cpi) (snake n) <> None) (needs demo_call) /\
  (* the remaining account was meant to be writable and is asked to sign *)
  (exists i ms data infos, find_builder (ix_name demo_call) = Some i /\
     cpi_invoke demo_ids 1 i (fold_left cpi_set demo_cpi cpi_new) = Ok (ms, data, infos) /\ In (77, Sign) ms) /\
  (* without the vault it panics *)
  chosen (account_settings (firstn 12 (skipn 1 demo_setters))) (snake "vaultHolderRewards") = None.
Proof.
  assert (forall A B C D : Prop, A -> B -> C -> D -> A /\ B /\ C /\ D) as Q by auto.
  split; [|split; [vm_compute; reflexivity|split; [discriminate|split; [|split; [apply Forall_nil; exact I|split; [|vm_compute; reflexivity]]]]]].
  - apply Q; [allof|allof; intros _; first [left; vm_compute; reflexivity|right; vm_compute; reflexivity]|intros _; vm_compute; reflexivity|allof].
  - apply Q; [allof|allof; intros _; first [left; vm_compute; reflexivity|right; vm_compute; reflexivity]|intros _; vm_compute; reflexivity|allof].
  - do 4 eexists. split; [vm_compute; reflexivity|]. split; [vm_compute; reflexivity|]. vm_compute. auto 20.
Qed.
