(** Derived addresses, and the addresses the clients compute (C56, C57, C58),
    and the delegation of either kind of stake account (C62). *)
From Coq Require Import String.
From Verif Require Import Base Types Layout Instr Math External Processor Runtime History SpecWire Codec Pda SpecPda PdaFacts.

(** A collision-free hash for the cases: lists of numbers coded as numbers; the
    address of configuration 7's vault is on the curve with bump 255. *)
Definition toy_hash (l : list N) : pubkey := Npos (encode l).
Definition toy_bytes (k : pubkey) : list N := k :: repeat 0 31.
Definition toy_bad : pubkey := toy_hash (str "token-owner" ++ toy_bytes 7 ++ 255 :: toy_bytes 8 ++ PDA_MARKER).
Definition toy : hashing := Hashing toy_hash (N.eqb toy_bad) toy_bytes.
Lemma toy_ok_for bad : hash_ok (Hashing toy_hash (N.eqb bad) toy_bytes).
Proof.
  assert (forall a b, toy_hash a = toy_hash b -> a = b) as I.
  { intros a b E. unfold toy_hash in E. injection E as E. now apply (inj encode) in E. }
  split.
  - exact I.
  - intros k. reflexivity.
  - intros k k' E. unfold h_bytes, toy_bytes in E. now injection E.
  - intros seeds prog _. unfold h_curve, h_hash.
    destruct (N.eqb_spec bad (toy_hash (preimage (Hashing toy_hash (N.eqb bad) toy_bytes) seeds 255 prog))) as [E|NE].
    + exists 254. split; [lia|]. apply N.eqb_neq. intros E'. rewrite E in E' at 1. apply I in E'.
      unfold preimage in E'. apply app_inv_head in E'. discriminate.
    + exists 255. split; [lia|]. now apply N.eqb_neq.
Qed.
Lemma toy_ok : hash_ok toy.
Proof. apply toy_ok_for. Qed.

(** ** C56: no two derived addresses coincide *)
(** With a collision-free hash the addresses of [state/mod.rs] satisfy everything the other theorems assume
    of them: the concatenated seeds of different kinds and different keys are different. *)
Theorem C56_addresses_distinct h prog token rewards votep view duna rent bytes : hash_ok h ->
  NoDup [0; prog; token; rewards; votep; view] ->
  env_ok (env_of h prog token rewards votep view duna rent bytes).
Proof. apply env_of_ok. Qed.
Print Assumptions C56_addresses_distinct.
Example C56_case : hash_ok toy /\ NoDup [0; 8; 16; 24; 32; 40].
Proof. split; [apply toy_ok|]. repeat constructor; rewrite ?elem_of_cons, elem_of_nil; lia. Qed.

(** Documents of different signers or hashes are different accounts, and none is an account of this program's. *)
Theorem C56_documents_distinct h prog token rewards votep view duna rent bytes : hash_ok h ->
  let e := env_of h prog token rewards votep view duna rent bytes in
  (forall s d s' d', e_duna e s d = e_duna e s' d' -> s = s' /\ d = d') /\
  (forall s d, ~ pda e (e_duna e s d)) /\ (forall s d o, e_duna e s d <> e_holder e o).
Proof.
  intros HO e. subst e. simpl. unfold pda. simpl.
  unfold find_duna_document_pda, find_vault_pda, find_validator_stake_pda, find_sol_staker_stake_pda,
    find_override_pda, find_holder_rewards_pda.
  split; [|split]; intros.
  - apply key_inj in H as [E _]; auto; try seeds. apply concat_2 in E as (_ & E1 & E2); auto.
  - intros [(v & c & H)|[(n & c & H)|[(c & H)|(a & c & H)]]];
      (apply key_inj in H as [E _]; [lengths HO E|auto; seeds..]).
  - intros H. apply key_inj in H as [E _]; auto; try seeds. lengths HO E.
Qed.
Print Assumptions C56_documents_distinct.

(** ** C57: the stored or recomputed bump always recreates the address *)
(** The search succeeds exactly with the largest usable bump. *)
Theorem C57_found_is_canonical h seeds prog k b : hash_ok h -> seeds_ok seeds ->
  (find_program_address h seeds prog = Some (k, b) <-> derived h seeds prog k b).
Proof.
  intros HO SO. destruct (find_spec h seeds prog HO SO) as (k' & b' & F & D). rewrite F. split.
  - intros [= <- <-]. exact D.
  - intros D'. destruct (derived_unique _ _ _ _ _ _ _ D D') as [-> ->]. reflexivity.
Qed.
Print Assumptions C57_found_is_canonical.

(** Each list of signer seeds goes with its finder: with the found bump it gives the found address, with any
    other bump it gives none or a different one. *)
Theorem C57_signer_seeds h prog a c k b b' : hash_ok h ->
  let pairs := [ (find_vault_pda h c prog, vault_signer_seeds h c);
                 (find_config_pda h prog, config_signer_seeds);
                 (find_sol_staker_stake_pda h a c prog, sol_signer_seeds h a c);
                 (find_override_pda h a c prog, override_signer_seeds h a c);
                 (find_validator_stake_pda h a c prog, val_signer_seeds h a c) ] in
  forall p, In p pairs -> fst p = Some (k, b) ->
  (create_program_address h (snd p b') prog = Created k <-> b' = b).
Proof.
  intros HO pairs p I F.
  assert (exists seeds, seeds_ok seeds /\ fst p = find_program_address h seeds prog /\
            (forall x, snd p x = (seeds ++ [[x]])%list)) as (seeds & SO & EF & ES).
  { subst pairs. simpl in I. destruct I as [<-|[<-|[<-|[<-|[<-|[]]]]]]; eexists; (split; [|split; reflexivity]).
    - seeds.
    - unfold seeds_ok, MAX_SEEDS, MAX_SEED_LEN. split; [simpl; lia|]. intros s [<-|[]]. short.
    - seeds.
    - seeds.
    - seeds. }
  rewrite EF in F. apply (C57_found_is_canonical _ _ _ _ _ HO SO) in F as (B & EK & C & M).
  rewrite ES, create_bump by auto. split.
  - destruct (h_curve h (h_hash h (preimage h seeds b' prog))); [discriminate|]. intros E. injection E as E. rewrite EK in E. apply (ho_inj _ HO) in E.
    unfold preimage in E. apply app_inv_head in E. injection E as E. exact E.
  - intros ->. rewrite <- EK, C. reflexivity.
Qed.
Print Assumptions C57_signer_seeds.

(** [create_vault_pda], with which slashing and the holder harvest check the vault authority, accepts the
    vault authority with the found bump and with no other one. *)
Theorem C57_vault_created h prog c k b b' : hash_ok h -> find_vault_pda h c prog = Some (k, b) ->
  (create_vault_pda h c b' prog = Created k <-> b' = b).
Proof.
  intros HO F. exact (C57_signer_seeds h prog c c k b b' HO (find_vault_pda h c prog, vault_signer_seeds h c) (or_introl eq_refl) F).
Qed.
Print Assumptions C57_vault_created.
Example C57_case : hash_ok toy /\
  bump (find_vault_pda toy 7 8) = 254 /\ bump (find_vault_pda toy 9 8) = 255 /\
  create_vault_pda toy 7 255 8 = OnCurve /\ create_vault_pda toy 7 254 8 = Created (key (find_vault_pda toy 7 8)).
Proof. split; [apply toy_ok|]. vm_compute. auto. Qed.

(** ** C58: the addresses the clients compute *)
(** The Rust client derives the program's own addresses. *)
Theorem C58_rust_addresses h prog :
  (forall c, client_vault h prog c = find_vault_pda h c prog) /\
  (forall s c, client_sol h prog s c = find_sol_staker_stake_pda h s c prog) /\
  (forall a c, client_override h prog a c = find_override_pda h a c prog) /\
  (forall v c, client_val h prog v c = find_validator_stake_pda h v c prog).
Proof.
  unfold client_vault, client_sol, client_override, client_val, find_vault_pda, find_sol_staker_stake_pda, find_override_pda, find_validator_stake_pda.
  generalize (find_program_address h). repeat split.
Qed.
Print Assumptions C58_rust_addresses.

(** The JavaScript client's [findVaultPda] uses other seeds. Whatever it is given, the result is no vault
    authority, and no instruction that needs one accepts it. *)
Theorem C58_js_vault_refuted h prog token rewards votep view duna rent bytes x : hash_ok h ->
  let e := env_of h prog token rewards votep view duna rent bytes in
  let js := key (js_vault h prog x) in
  (forall c, js <> e_vault e c) /\
  (forall cx a s au cd b sy d w w', ic_vault_pda a = js -> initialize_config e cx a s au cd b sy d w <> Ok w') /\
  (forall cx a n w w', un_vault_pda a = js -> unstake_tokens e cx a n w <> Ok w') /\
  (forall cx a n w w', st_vault_pda a = js -> validator_stake_tokens e cx a n w <> Ok w' /\
                                              sol_staker_stake_tokens e cx a n w <> Ok w').
Proof.
  intros HO e js.
  assert (forall c, js <> e_vault e c) as NV.
  { intros c H. subst js e. simpl in H. unfold js_vault, find_vault_pda in H.
    apply key_inj in H as [E _]; auto; try seeds. apply concat_1 in E as [E _]; auto. discriminate. }
  assert (forall c, (js =? e_vault e c) = false) as NB by (intros c; now apply N.eqb_neq).
  assert (forall cx a b n w w', st_vault_pda a = js -> stake_tokens e cx a b n w <> Ok w') as ST.
  { intros cx a b n w w' E. unfold stake_tokens. rewrite E, NB.
    destruct (harvest _ _ _ _ _ _ _ _); simpl; try discriminate.
    destruct (unpack_config _); simpl; discriminate. }
  split; [exact NV|split; [|split]].
  - intros cx a s au cd b sy d w w' E. unfold initialize_config. rewrite E, NB.
    destruct (unpack_mint _); simpl; discriminate.
  - intros cx a n w w' E. unfold unstake_tokens. rewrite E, NB.
    destruct (load_config _ _ _); simpl; try discriminate. unfold require at 1 2.
    destruct (_ =? _); simpl; try discriminate. destruct (negb _); simpl; try discriminate.
    destruct (unpack_token _); simpl; discriminate.
  - intros cx a n w w' E. unfold validator_stake_tokens, sol_staker_stake_tokens.
    destruct (load_config _ _ _); simpl; split; try discriminate.
    + destruct (load_val _ _ _ _); simpl; try discriminate. now apply ST.
    + destruct (load_sol _ _ _ _); simpl; try discriminate. now apply ST.
Qed.
Print Assumptions C58_js_vault_refuted.
Example C58_case : hash_ok toy /\ key (js_vault toy 8 7) <> key (find_vault_pda toy 7 8).
Proof. split; [apply toy_ok|]. vm_compute. discriminate. Qed.

(** ** C62: the delegation of either kind of stake account *)
(** Success exactly on the bytes of a stake account passed at its own derived address. *)
Theorem C62_delegation_checked e b stake config d : bytes b ->
  (unpack_delegation_checked e b stake config = Ok d <->
   (exists s, wire_sol s b /\ stake = e_sol e (s_native s) config /\ d = s_del s) \/
   (exists v, wire_val v b /\ stake = e_val e (vote (v_del v)) config /\ d = v_del v)).
Proof.
  intros B. split.
  - unfold unpack_delegation_checked. destruct (8 <=? length b)%nat; cbn [assert bind]; [|discriminate].
    destruct (bytes_eqb (slice b 0 8) disc_sol).
    { destruct (unpack_bytes 168 disc_sol dec_sol b) as [s| |] eqn:E; cbn [bind]; try discriminate.
      apply sol_unpack in E; auto. destruct (N.eqb_spec stake (e_sol e (s_native s) config)); cbn; [|discriminate].
      intros [= <-]. left. eauto. }
    destruct (bytes_eqb (slice b 0 8) disc_val); cbn [bind]; [|discriminate].
    destruct (unpack_bytes 144 disc_val dec_val b) as [v| |] eqn:E; cbn [bind]; try discriminate.
    apply val_unpack in E; auto. destruct (N.eqb_spec stake (e_val e (vote (v_del v)) config)); cbn; [|discriminate].
    intros [= <-]. right. eauto.
  - intros [(s & W & -> & ->)|(v & W & -> & ->)]; unfold unpack_delegation_checked.
    + rewrite (sol_length _ _ W). cbn [Nat.leb assert bind]. rewrite (sol_disc _ _ W).
      rewrite (proj2 (bytes_eqb_eq _ _) eq_refl). rewrite (proj2 (sol_unpack b s B) W). cbn [bind].
      rewrite N.eqb_refl. reflexivity.
    + rewrite (val_length _ _ W). cbn [Nat.leb assert bind]. rewrite (val_disc _ _ W).
      replace (bytes_eqb disc_val disc_sol) with false by reflexivity.
      rewrite (proj2 (bytes_eqb_eq _ _) eq_refl). rewrite (proj2 (val_unpack b v B) W). cbn [bind].
      rewrite N.eqb_refl. reflexivity.
Qed.
Print Assumptions C62_delegation_checked.
(** It aborts exactly on fewer than eight bytes. *)
Theorem C62_delegation_panics e b stake config :
  unpack_delegation_checked e b stake config = Panic <-> (length b < 8)%nat.
Proof.
  unfold unpack_delegation_checked. destruct (Nat.leb_spec 8 (length b)) as [L|L]; cbn [assert bind].
  - split; [|lia]. intros H. exfalso. revert H.
    assert (forall A n dsc (dec : list N -> A), unpack_bytes n dsc dec b <> Panic) as NP.
    { intros A n dsc dec. unfold unpack_bytes. destruct (_ =? _)%nat; cbn; [|discriminate].
      destruct (bytes_eqb _ _); discriminate. }
    destruct (bytes_eqb (slice b 0 8) disc_sol).
    { destruct (unpack_bytes 168 disc_sol dec_sol b) eqn:E; cbn; [|discriminate|now apply NP in E].
      destruct (_ =? _); discriminate. }
    destruct (bytes_eqb (slice b 0 8) disc_val); cbn; [|discriminate].
    destruct (unpack_bytes 144 disc_val dec_val b) eqn:E; cbn; [|discriminate|now apply NP in E].
    destruct (_ =? _); discriminate.
  - split; auto.
Qed.
Print Assumptions C62_delegation_panics.
Definition toy_env : env := env_of toy 8 16 24 32 40 48 (fun _ => 0) (fun _ => []).
Example C62_case :
  let s := SStake (Del 5 4 0 3 2 1 0) 9 7 in
  bytes (enc_sol s) /\
  unpack_delegation_checked toy_env (enc_sol s) (e_sol toy_env 7 1) 1 = Ok (s_del s) /\
  unpack_delegation_checked toy_env (enc_sol s) (e_sol toy_env 6 1) 1 = Err InvalidSeeds /\
  unpack_delegation_checked toy_env [1] 0 1 = Panic.
Proof. split; [vm_compute; repeat constructor|]. split; [|split]; vm_compute; reflexivity. Qed.
