(** The JavaScript client: built and parsed instructions (C65, C66), account codecs (C67),
    nullable values (C68), errors (C69). *)
From Coq Require Import String Ascii.
From Verif Require Import Base Types Layout Instr Math External Processor Runtime History Spec SpecWire Declared
  WorldLemmas Effects Handlers Evolve Sane Wf Totals Arith Nets Caps Stakers Deposits Inv Demo Codec Touches
  PropDeclared Client PropClient JsClient.

(** ** C65: what the JavaScript client builds *)
(** The call the caller means: the given token program or the usual one, and the number the given
    hash's 32 bytes stand for. *)
Definition given (o : option pubkey) (d : pubkey) : pubkey := match o with Some k => k | None => d end.
Definition hash_number (h : list N) : N := value (firstn 32 (h ++ repeat 0 32)).
Definition meant (x : client_ids) (i : js_input) (c : call) : call :=
  let t := given (in_token i) (id_token x) in
  let stake a := StakeA (st_config a) (st_pool a) (st_ptok a) (st_stake a) (st_authority a) (st_source a)
                        (st_source_auth a) (st_mint a) (st_vault_pda a) (st_vault a) (st_vhr a) t in
  let slash a := SlashA (sl_config a) (sl_stake a) (sl_authority a) (sl_slash a) (sl_vault a) (sl_vhr a)
                        (sl_vault_auth a) (sl_mint a) t in
  match c with
  | CInitializeConfig a s au cd b y _ => CInitializeConfig a s au cd b y (hash_number (in_hash i))
  | CValidatorStakeTokens a n => CValidatorStakeTokens (stake a) n
  | CSolStakerStakeTokens a n => CSolStakerStakeTokens (stake a) n
  | CSlashValidatorStake a n => CSlashValidatorStake (slash a) n
  | CSlashSolStakerStake a n => CSlashSolStakerStake (slash a) n
  | CUnstakeTokens a n =>
      CUnstakeTokens (UnstakeA (un_config a) (un_pool a) (un_ptok a) (un_stake a) (un_authority a) (un_vault a)
                               (un_vault_pda a) (un_vhr a) (un_mint a) (un_dest a) t) n
  | c => c
  end.
(** The Rust client's constants with the given accounts. *)
Definition ids_for (x : client_ids) (i : js_input) : client_ids :=
  ClientIds (id_prog x) (given (in_system i) (id_system x)) (in_rewards i) (given (in_token i) (id_token x))
            (given (in_history i) (id_history x)).

Lemma js_metas_rust x i c : js_metas x i c = client_metas (ids_for x i) (meant x i c) [].
Proof.
  unfold js_metas, client_metas. rewrite app_nil_r.
  destruct i as [[t|] [s|] [h|] r d]; destruct c as [a ? ? ? ? ? ?|a|a ?|a|a|a ?|a ?|a ?|a|a ?|a|a ?|a ?|a ?|a ?|a];
    try reflexivity; cbn; destruct (hs_keeper a); reflexivity.
Qed.

Lemma uint_ok n x b : uint n x = Some b <-> x < 256 ^ N.of_nat n /\ b = le_bytes n x.
Proof.
  unfold uint. destruct (N.ltb_spec x (256 ^ N.of_nat n)); split; intros H'; try discriminate.
  - injection H' as <-. auto.
  - destruct H' as [_ ->]. reflexivity.
  - destruct H'. lia.
Qed.
Lemma struct_nil b : struct [] = Some b <-> b = [].
Proof. cbn. split; [now injection 1 as <-|now intros ->]. Qed.
Lemma struct_cons o l b : struct (o :: l) = Some b <-> exists p q, o = Some p /\ struct l = Some q /\ b = p ++ q.
Proof.
  cbn. destruct o as [p|]; [destruct (struct l) as [q|]|]; split; intros H.
  - injection H as <-. eauto.
  - destruct H as (p' & q' & E1 & E2 & ->). congruence.
  - discriminate.
  - destruct H as (p' & q' & E1 & E2 & ->). discriminate.
  - discriminate.
  - destruct H as (p' & q' & E1 & E2 & ->). discriminate.
Qed.
Lemma fix_bytes_length n b : length (fix_bytes n b) = n.
Proof. unfold fix_bytes. rewrite firstn_length, app_length, repeat_length. lia. Qed.
Lemma fix_bytes_bytes n b : bytes b -> bytes (fix_bytes n b).
Proof.
  intros B. unfold fix_bytes, bytes. apply Forall_take, Forall_app. split; [exact B|].
  apply Forall_forall. intros x I. apply elem_of_list_In, repeat_spec in I. subst x. lia.
Qed.

Definition js_range (c : call) : Prop :=
  match c with
  | CInitializeConfig _ s a cd b y _ => s < 2 ^ 256 /\ a < 2 ^ 256 /\ cd < 2 ^ 64 /\ b < 2 ^ 16 /\ y < 2 ^ 64
  | c => args_fit c
  end.
Lemma js_data_ok x i c d : bytes (in_hash i) ->
  (js_data i c = Some d <-> args_fit (meant x i c) /\ d = client_data (meant x i c)).
Proof.
  intros B.
  assert (forall n, uint 1 n = Some [n] \/ ~ n < 256) as U1.
  { intros n. destruct (decide (n < 256)) as [L|L]; [left|now right].
    apply uint_ok. split; [exact L|]. cbn. rewrite N.mod_small by lia. reflexivity. }
  assert (forall k r, k < 256 -> (struct [uint 1 k; r] = Some d <-> exists p, r = Some p /\ d = k :: p)) as TWO.
  { intros k r L. destruct (U1 k) as [E|E]; [|lia]. rewrite struct_cons, E. split.
    - intros (p & q & EP & Q & ->). injection EP as <-. apply struct_cons in Q as (p' & q' & -> & Q & ->).
      apply struct_nil in Q as ->. rewrite app_nil_r. exists p'. auto.
    - intros (p & -> & ->). exists [k], p. split; [reflexivity|]. split; [|reflexivity]. cbn. now rewrite app_nil_r. }
  assert (forall k, k < 256 -> (struct [uint 1 k] = Some d <-> d = [k])) as ONE.
  { intros k L. destruct (U1 k) as [E|E]; [|lia]. rewrite E. cbn. split; [now injection 1 as <-|now intros ->]. }
  assert (forall k n, k < 256 ->
    (struct [uint 1 k; uint 8 n] = Some d <-> n < 2 ^ 64 /\ d = [k] ++ le_bytes 8 n)) as AMT.
  { intros k n L. rewrite TWO by exact L. split.
    - intros (p & E & ->). apply uint_ok in E as [RN ->]. split; [exact RN|reflexivity].
    - intros [RN ->]. exists (le_bytes 8 n). split; [apply uint_ok; split; [exact RN|reflexivity]|reflexivity]. }
  destruct c as [a s au cd b y h|a|a n|a|a|a n|a t|a f|a|a n|a|a n|a n|a n|a n|a];
    cbn [js_data meant args_fit client_data]; unfold borsh_u64, borsh_u16, borsh_key;
    try (apply AMT; lia); try (rewrite ONE by lia; split; [intros ->; split; [exact I|reflexivity]|now intros [_ ->]]).
  - assert (is_le 32 (hash_number (in_hash i)) (fix_bytes 32 (in_hash i))) as H.
    { split; [apply fix_bytes_length|]. split; [now apply fix_bytes_bytes|reflexivity]. }
    pose proof (is_le_range _ _ _ H) as RH. apply is_le_eq in H.
    rewrite H. rewrite !struct_cons. unfold address. split.
    + intros (p0 & q0 & E0 & S0 & ->). apply uint_ok in E0 as [_ ->].
      apply struct_cons in S0 as (p1 & q1 & E1 & S1 & ->). apply uint_ok in E1 as [R1 ->].
      apply struct_cons in S1 as (p2 & q2 & E2 & S2 & ->). apply uint_ok in E2 as [R2 ->].
      apply struct_cons in S2 as (p3 & q3 & E3 & S3 & ->). apply uint_ok in E3 as [R3 ->].
      apply struct_cons in S3 as (p4 & q4 & E4 & S4 & ->). apply uint_ok in E4 as [R4 ->].
      apply struct_cons in S4 as (p5 & q5 & E5 & S5 & ->). apply uint_ok in E5 as [R5 ->].
      apply struct_cons in S5 as (p6 & q6 & E6 & S6 & ->). injection E6 as <-. apply struct_nil in S6 as ->.
      split; [repeat (split; [assumption|]); assumption|]. rewrite app_nil_r. reflexivity.
    + intros ((R1 & R2 & R3 & R4 & R5 & R6) & ->).
      eexists _, _. split; [apply uint_ok; split; [lia|reflexivity]|]. split; [|reflexivity].
      apply struct_cons. eexists _, _. split; [apply uint_ok; split; [exact R1|reflexivity]|]. split; [|reflexivity].
      apply struct_cons. eexists _, _. split; [apply uint_ok; split; [exact R2|reflexivity]|]. split; [|reflexivity].
      apply struct_cons. eexists _, _. split; [apply uint_ok; split; [exact R3|reflexivity]|]. split; [|reflexivity].
      apply struct_cons. eexists _, _. split; [apply uint_ok; split; [exact R4|reflexivity]|]. split; [|reflexivity].
      apply struct_cons. eexists _, _. split; [apply uint_ok; split; [exact R5|reflexivity]|]. split; [|reflexivity].
      cbn [struct]. now rewrite app_nil_r.
  - rewrite TWO by lia. destruct t; cbn; split.
    + intros (p & E & ->). injection E as <-. split; [exact I|reflexivity].
    + intros [_ ->]. eexists. split; reflexivity.
    + intros (p & E & ->). injection E as <-. split; [exact I|reflexivity].
    + intros [_ ->]. eexists. split; reflexivity.
  - rewrite TWO by lia.
    assert (forall k m v, k < 256 -> (exists p, struct [uint 1 k; uint m v] = Some p /\ d = 7 :: p) <->
            v < 256 ^ N.of_nat m /\ d = [7] ++ k :: le_bytes m v) as ARG.
    { intros k m v L. split.
      - intros (p & S0 & ->). apply struct_cons in S0 as (p0 & q0 & E0 & S0 & ->).
        destruct (U1 k) as [E|E]; [|lia]. rewrite E in E0. injection E0 as <-.
        apply struct_cons in S0 as (p1 & q1 & E1 & S1 & ->). apply uint_ok in E1 as [RV ->].
        apply struct_nil in S1 as ->. rewrite app_nil_r. split; [exact RV|reflexivity].
      - intros [RV ->]. eexists. split; [|reflexivity]. apply struct_cons.
        destruct (U1 k) as [E|E]; [|lia]. exists [k], (le_bytes m v). split; [exact E|]. split; [|reflexivity].
        apply struct_cons. exists (le_bytes m v), []. split; [apply uint_ok; split; [exact RV|reflexivity]|].
        split; [reflexivity|now rewrite app_nil_r]. }
    destruct f; cbn [js_config_field borsh_config_field]; (rewrite ARG by lia); reflexivity.
Qed.

(** Building succeeds exactly for arguments that fit, and lists what the Rust client lists. *)
Theorem C65_js_builds x i c : bytes (in_hash i) ->
  ((exists ms d, js_build x i c = Some (ms, d)) <-> js_range c) /\
  (forall ms d, js_build x i c = Some (ms, d) ->
     ms = client_metas (ids_for x i) (meant x i c) [] /\ d = client_data (meant x i c)).
Proof.
  intros B.
  assert (args_fit (meant x i c) <-> js_range c) as F.
  { destruct c; try reflexivity. cbn [args_fit meant js_range].
    assert (hash_number (in_hash i) < 2 ^ 256).
    { apply (is_le_range 32 _ (fix_bytes 32 (in_hash i))). split; [apply fix_bytes_length|].
      split; [now apply fix_bytes_bytes|reflexivity]. }
    tauto. }
  unfold js_build. split.
  - rewrite <- F. split.
    + intros (ms & d & H). destruct (js_data i c) as [d'|] eqn:E; [|discriminate].
      apply (js_data_ok x) in E; tauto.
    + intros A. assert (js_data i c = Some (client_data (meant x i c))) as -> by (apply (js_data_ok x); auto). eauto.
  - intros ms d H. destruct (js_data i c) as [d'|] eqn:E; [|discriminate]. injection H as <- <-.
    apply (js_data_ok x) in E as [_ E]; auto. split; [apply js_metas_rust|exact E].
Qed.
Print Assumptions C65_js_builds.

Lemma meant_keeper x i c : keeper_of (meant x i c) = keeper_of c.
Proof. destruct c; reflexivity. Qed.
(** The program runs what was built as the call that was meant. *)
Theorem C65_js_calls e cx x i c ms d w : bytes (in_hash i) ->
  id_prog x = e_prog e -> keeper_of c <> Some (e_prog e) ->
  js_build x i c = Some (ms, d) ->
  process_instruction e cx (map fst ms) d w = run e cx (meant x i c) w.
Proof.
  intros B P K H. assert (js_range c) as JR by (apply (C65_js_builds x i); eauto).
  apply C65_js_builds in H as H'; auto. destruct H' as [-> ->].
  apply C59_client_calls; [exact P| |now rewrite meant_keeper].
  unfold js_build in H. destruct (js_data i c) eqn:E; [|discriminate]. apply (js_data_ok x) in E; tauto.
Qed.
Print Assumptions C65_js_calls.

(** Its privileges are enough, as in C59. *)
Theorem C65_js_privileges e cx x i c ms d w w' : bytes (in_hash i) ->
  id_prog x = e_prog e -> keeper_of c <> Some (e_prog e) ->
  js_build x i c = Some (ms, d) -> run e cx (meant x i c) w = Ok w' ->
  (forall k, In k (readonly_payee (meant x i c)) -> lam (get w k) < lam (get w' k) -> In (k, Write) ms) ->
  process_instruction e (ctx_of ms (c_now cx) (c_view cx) (c_pool_acc cx)) (map fst ms) d w = Ok w'.
Proof.
  intros B P K H RN PY.
  assert (args_fit (meant x i c)) as A.
  { unfold js_build in H. destruct (js_data i c) eqn:E; [|discriminate]. apply (js_data_ok x) in E; tauto. }
  apply C65_js_builds in H; auto. destruct H as [-> ->].
  apply (C59_client_privileges e cx (ids_for x i) (meant x i c) [] w w'); auto. now rewrite meant_keeper.
Qed.
Print Assumptions C65_js_privileges.

(** A hash of 32 bytes is sent unchanged; a longer one is silently cut, a shorter one silently padded. *)
Theorem C65_js_hash x i c h : bytes h -> length h = 32%nat ->
  is_le 32 (hash_number h) h /\
  (forall more, js_build x (JsInput (in_token i) (in_system i) (in_history i) (in_rewards i) (h ++ more)) c =
                js_build x (JsInput (in_token i) (in_system i) (in_history i) (in_rewards i) h) c) /\
  (forall h' n, h = h' ++ repeat 0 n ->
                js_build x (JsInput (in_token i) (in_system i) (in_history i) (in_rewards i) h') c =
                js_build x (JsInput (in_token i) (in_system i) (in_history i) (in_rewards i) h) c).
Proof.
  intros B L.
  assert (forall a b, fix_bytes 32 a = fix_bytes 32 b ->
    js_build x (JsInput (in_token i) (in_system i) (in_history i) (in_rewards i) a) c =
    js_build x (JsInput (in_token i) (in_system i) (in_history i) (in_rewards i) b) c) as SAME.
  { intros a b E. unfold js_build, js_data. cbn [in_hash]. rewrite E.
    destruct c; reflexivity. }
  assert (forall r, fix_bytes 32 (h ++ r) = h) as FIX.
  { intros r. unfold fix_bytes. rewrite <- app_assoc, <- L. rewrite firstn_app, Nat.sub_diag, firstn_O, app_nil_r.
    apply firstn_all. }
  split; [|split].
  - split; [exact L|]. split; [exact B|]. unfold hash_number. change (firstn 32 (h ++ repeat 0 32)) with (fix_bytes 32 h).
    rewrite <- (app_nil_r h) at 2. now rewrite FIX.
  - intros more. apply SAME. rewrite FIX. rewrite <- (app_nil_r h) at 2. now rewrite FIX.
  - intros h' n E. apply SAME. rewrite <- (app_nil_r h), FIX.
    assert (n <= 32)%nat as LN by (rewrite E, app_length, repeat_length in L; lia).
    unfold fix_bytes. rewrite E in L |- *. rewrite app_length, repeat_length in L.
    replace (repeat 0 32) with (repeat 0 n ++ repeat 0 (32 - n)) by (rewrite <- repeat_app; f_equal; lia).
    rewrite app_assoc, firstn_app. rewrite app_length, repeat_length, L, Nat.sub_diag, firstn_O, app_nil_r.
    rewrite <- L. replace (length h' + n)%nat with (length (h' ++ repeat 0 n)) by (rewrite app_length, repeat_length; reflexivity).
    apply firstn_all.
Qed.
Print Assumptions C65_js_hash.
(** A case: unstaking without naming the token program, and a hash of three bytes. *)
Definition demo_input : js_input := JsInput None None (Some 78) (e_rewards denv) [1; 2; 3].
Example C65_case :
  bytes (in_hash demo_input) /\ id_prog demo_ids = e_prog denv /\ keeper_of unstake_call <> Some (e_prog denv) /\
  js_range unstake_call /\ meant demo_ids demo_input unstake_call = unstake_call /\
  js_build demo_ids demo_input unstake_call = Some (client_metas demo_ids unstake_call [], [11; 144; 1; 0; 0; 0; 0; 0; 0]) /\
  hash_number (in_hash demo_input) = 197121.
Proof.
  split; [repeat constructor|]. split; [reflexivity|]. split; [discriminate|]. split; [vm_compute; reflexivity|].
  split; [reflexivity|]. split; vm_compute; reflexivity.
Qed.

(** ** C66: identifying and parsing instructions *)
(** The instructions' numbers. *)
Definition number (i : instruction) : N :=
  match i with
  | IInitializeConfig _ _ _ _ _ _ => 0 | IInitializeValidatorStake => 1 | IValidatorStakeTokens _ => 2
  | IHarvestHolderRewards => 3 | IHarvestValidatorRewards => 4 | ISlashValidatorStake _ => 5
  | ISetAuthority _ => 6 | IUpdateConfig _ => 7 | IInitializeSolStakerStake => 8 | ISolStakerStakeTokens _ => 9
  | IHarvestSolStakerRewards => 10 | IUnstakeTokens _ => 11 | ISlashSolStakerStake _ => 12
  | ISolStakerMoveTokens _ => 13 | IValidatorOverrideStakedLamports _ => 14 | IValidatorSyncAuthority => 15
  end.
Theorem C66_identify data k :
  (js_identify data = Some k <-> exists r, data = k :: r /\ k <= 15) /\
  (forall i, unpack data = Ok i -> js_identify data = Some (number i)).
Proof.
  assert (forall j, js_identify data = Some j <-> exists r, data = j :: r /\ j <= 15) as ID.
  { intros j. split.
    - intros H. apply find_some in H as [HI HB]. destruct data as [|b r]; [discriminate|].
      apply N.eqb_eq in HB as ->. exists r. split; [reflexivity|].
      cbn in HI. lia.
    - intros (r & -> & L).
      assert (j = 0 \/ j = 1 \/ j = 2 \/ j = 3 \/ j = 4 \/ j = 5 \/ j = 6 \/ j = 7 \/ j = 8 \/ j = 9 \/ j = 10 \/
              j = 11 \/ j = 12 \/ j = 13 \/ j = 14 \/ j = 15) as C by lia.
      repeat (destruct C as [->|C]; [reflexivity|]). subst j. reflexivity. }
  split; [apply ID|]. intros i U. apply ID. destruct data as [|t r]; [discriminate|]. exists r.
  destruct (tag_cases t) as [G|C]; [now rewrite (unpack_big t r G) in U|].
  assert (forall f l, amount_ix l f = Ok i -> exists n, i = f n) as AM.
  { intros f l H. unfold amount_ix in H. destruct (length l =? 8)%nat; [|discriminate]. injection H as <-. eauto. }
  repeat (destruct C as [->|C]; [cbn [unpack] in U; first
    [ apply AM in U as [n ->]; split; [reflexivity|cbn [number]; lia]
    | injection U as <-; split; [reflexivity|cbn [number]; lia]
    | clear AM ID;
      repeat match type of U with context [match ?s with _ => _ end] => destruct s; try discriminate U end;
      injection U as <-; (split; [reflexivity|cbn [number]; lia]) ] |]).
  subst t. cbn in U. injection U as <-. split; [reflexivity|cbn; lia].
Qed.
Print Assumptions C66_identify.

Lemma read_tag t r : read_num 1 (t :: r) = Some (t, r).
Proof. unfold read_num. cbn. rewrite N.add_0_r. reflexivity. Qed.
Lemma read_last n x b : is_le n x b -> read_num n b = Some (x, []).
Proof. intros H. rewrite <- (app_nil_r b). now apply read_num_le. Qed.
Ltac split_accounts ks H := repeat (destruct ks as [|? ks]; [discriminate H|]).

(** Whatever the program accepts, the parser of the identified kind reads as the program does. *)
Theorem C66_parse_agrees e ms data i c : bytes data ->
  unpack data = Ok i -> accounts_of e (map fst ms) i = Ok c ->
  js_parse (e_prog e) (number i) ms data = Some (number i, c).
Proof.
  intros B U AC. apply (unpack_wire _ _ B) in U. unfold js_parse, from_bytes.
  remember (map fst ms) as ks eqn:EK. clear EK ms B.
  destruct U; split_accounts ks AC; cbn in AC; injection AC as <-; cbn [number js_parser];
    unfold plain, with_amount, read_authority_type, read_config_field, andthen, done; rewrite ?read_tag;
    try reflexivity; try (erewrite read_last by eassumption; reflexivity).
  do 5 (erewrite read_num_le by eassumption). erewrite read_last by eassumption. reflexivity.
Qed.
Print Assumptions C66_parse_agrees.
(** What it reads is what the program reads once trailing bytes are dropped. *)
Theorem C66_parse_only e ms data k d c : bytes data ->
  js_identify data = Some k -> js_parse (e_prog e) k ms data = Some (d, c) ->
  d = k /\ number (instr_of c) = k /\ accounts_of e (map fst ms) (instr_of c) = Ok c /\
  exists p q, data = p ++ q /\ unpack p = Ok (instr_of c).
Proof.
  intros B ID H. apply (C66_identify data k) in ID as (r & -> & L).
  unfold js_parse, from_bytes in H. remember (map fst ms) as ks eqn:EK. clear EK ms.
  assert (bytes r) as BR by (now inversion B). clear B.
  assert (forall x p, is_le 8 x p -> forall f, amount_ix p f = Ok (f x)) as AMT.
  { intros x p W f. unfold amount_ix. rewrite (is_le_length _ _ _ W). cbn. f_equal. f_equal.
    rewrite <- (app_nil_r p). now apply num_at_0. }
  assert (k = 0 \/ k = 1 \/ k = 2 \/ k = 3 \/ k = 4 \/ k = 5 \/ k = 6 \/ k = 7 \/ k = 8 \/ k = 9 \/ k = 10 \/
          k = 11 \/ k = 12 \/ k = 13 \/ k = 14 \/ k = 15) as CASES by lia.
  assert (forall A (f : A) (P : N * A -> Prop) t,
            option_map fst (plain f (t :: r)) = Some (d, f) -> d = t) as PL.
  { intros A f P t E. unfold plain, andthen, done in E. rewrite read_tag in E. now injection E. }
  assert (forall f t, option_map fst (with_amount f (t :: r)) = Some (d, c) ->
            d = t /\ exists x p q, r = p ++ q /\ is_le 8 x p /\ c = f x) as WA.
  { intros f t E. unfold with_amount, andthen, done in E. rewrite read_tag in E.
    destruct (read_num 8 r) as [[x q]|] eqn:RN; [|discriminate]. injection E as <- <-.
    apply (read_num_inv _ _ _ _ BR) in RN as (p & -> & W & _). split; [reflexivity|]. exists x, p, q. auto. }
  repeat (destruct CASES as [->|CASES]; [|]); [..|subst k];
    split_accounts ks H; cbn [js_parser] in H;
    try solve [unfold plain, andthen, done in H; rewrite read_tag in H; injection H as <- <-;
               split; [reflexivity|]; split; [reflexivity|]; split; [reflexivity|];
               eexists [_], r; split; reflexivity];
    try solve [apply WA in H as (-> & x & p & q & -> & W & ->);
               split; [reflexivity|]; split; [reflexivity|]; split; [reflexivity|];
               eexists (_ :: p), q; split; [reflexivity|]; cbn [unpack instr_of]; apply (AMT _ _ W)].
  - unfold andthen in H. rewrite read_tag in H. 
    destruct (read_num 32 r) as [[s r1]|] eqn:E1; [|discriminate].
    apply (read_num_inv _ _ _ _ BR) in E1 as (p1 & -> & W1 & B1).
    destruct (read_num 32 r1) as [[a r2]|] eqn:E2; [|discriminate].
    apply (read_num_inv _ _ _ _ B1) in E2 as (p2 & -> & W2 & B2).
    destruct (read_num 8 r2) as [[cd r3]|] eqn:E3; [|discriminate].
    apply (read_num_inv _ _ _ _ B2) in E3 as (p3 & -> & W3 & B3).
    destruct (read_num 2 r3) as [[b r4]|] eqn:E4; [|discriminate].
    apply (read_num_inv _ _ _ _ B3) in E4 as (p4 & -> & W4 & B4).
    destruct (read_num 8 r4) as [[y r5]|] eqn:E5; [|discriminate].
    apply (read_num_inv _ _ _ _ B4) in E5 as (p5 & -> & W5 & B5).
    destruct (read_num 32 r5) as [[h r6]|] eqn:E6; [|discriminate].
    apply (read_num_inv _ _ _ _ B5) in E6 as (p6 & -> & W6 & B6).
    unfold done in H. injection H as <- <-.
    split; [reflexivity|]. split; [reflexivity|]. split; [reflexivity|].
    exists (0 :: p1 ++ p2 ++ p3 ++ p4 ++ p5 ++ p6), r6. split; [cbn; now rewrite <- !app_assoc|].
    apply wire_unpack. cbn [instr_of]. now constructor.
  - unfold andthen in H. rewrite read_tag in H. unfold read_authority_type, andthen in H.
    destruct (read_num 1 r) as [[t r1]|] eqn:E1; [|discriminate].
    apply (read_num_inv _ _ _ _ BR) in E1 as (p1 & -> & W1 & B1).
    assert (p1 = [t]) as ->.
    { apply is_le_eq in W1 as W1'. rewrite W1'. cbn. rewrite N.mod_small; [reflexivity|]. exact (is_le_range _ _ _ W1). }
    destruct t as [|[?|?|]]; try discriminate; unfold done in H; injection H as <- <-;
      (split; [reflexivity|]; split; [reflexivity|]; split; [reflexivity|]).
    + exists [6; 0], r1. split; reflexivity.
    + exists [6; 1], r1. split; reflexivity.
  - unfold andthen in H. rewrite read_tag in H. unfold read_config_field, andthen in H.
    destruct (read_num 1 r) as [[t r1]|] eqn:E1; [|discriminate].
    apply (read_num_inv _ _ _ _ BR) in E1 as (p1 & -> & W1 & B1).
    assert (p1 = [t]) as ->.
    { apply is_le_eq in W1 as W1'. rewrite W1'. cbn. rewrite N.mod_small; [reflexivity|]. exact (is_le_range _ _ _ W1). }
    destruct t as [|[?|[?|?|]|]]; try discriminate.
    + destruct (read_num 8 r1) as [[v r2]|] eqn:E2; [|discriminate].
      apply (read_num_inv _ _ _ _ B1) in E2 as (p2 & -> & W2 & B2). unfold done in H. injection H as <- <-.
      split; [reflexivity|]. split; [reflexivity|]. split; [reflexivity|].
      exists (7 :: 0 :: p2), r2. split; [reflexivity|]. apply wire_unpack. now constructor.
    + destruct (read_num 8 r1) as [[v r2]|] eqn:E2; [|discriminate].
      apply (read_num_inv _ _ _ _ B1) in E2 as (p2 & -> & W2 & B2). unfold done in H. injection H as <- <-.
      split; [reflexivity|]. split; [reflexivity|]. split; [reflexivity|].
      exists (7 :: 2 :: p2), r2. split; [reflexivity|]. apply wire_unpack. now constructor.
    + destruct (read_num 2 r1) as [[v r2]|] eqn:E2; [|discriminate].
      apply (read_num_inv _ _ _ _ B1) in E2 as (p2 & -> & W2 & B2). unfold done in H. injection H as <- <-.
      split; [reflexivity|]. split; [reflexivity|]. split; [reflexivity|].
      exists (7 :: 1 :: p2), r2. split; [reflexivity|]. apply wire_unpack. now constructor.
Qed.
Print Assumptions C66_parse_only.

(** Parsing what was built gives back what was meant. *)
Theorem C66_round_trip e x i c ms d : bytes (in_hash i) ->
  id_prog x = e_prog e -> keeper_of c <> Some (e_prog e) ->
  js_build x i c = Some (ms, d) ->
  exists k, js_identify d = Some k /\ js_parse (e_prog e) k ms d = Some (k, meant x i c).
Proof.
  intros B P K H.
  assert (args_fit (meant x i c)) as A.
  { unfold js_build in H. destruct (js_data i c) eqn:E; [|discriminate]. apply (js_data_ok x) in E; tauto. }
  apply C65_js_builds in H; auto. destruct H as [-> ->].
  pose proof (client_unpack _ A) as U.
  assert (bytes (client_data (meant x i c))) as BD.
  { assert (client_data (meant x i c) = pack (instr_of (meant x i c))) as ->.
    { destruct (meant x i c); try reflexivity; [destruct t|destruct f]; reflexivity. }
    assert (forall n v, bytes (le_bytes n v)) as LB by apply le_bytes_bytes.
    destruct (instr_of (meant x i c)) as [| | | | | |[]|[]| | | | | | | |]; cbn [pack];
      repeat first [apply LB | apply bytes_app; split | constructor; [lia|] | constructor]. }
  exists (number (instr_of (meant x i c))). split; [apply (proj2 (C66_identify _ 0)); exact U|].
  apply C66_parse_agrees; [exact BD|exact U|]. apply client_accounts; [exact P|now rewrite meant_keeper].
Qed.
Print Assumptions C66_round_trip.

(** A parser does not check the kind: validator staking parses as SOL staker staking, and data the program
    refuses parses. *)
Theorem C66_parser_checks_kind_refuted prog ms n c :
  js_parse prog 2 ms (2 :: le_bytes 8 n) = Some (2, c) ->
  exists a m, c = CValidatorStakeTokens a m /\
    js_parse prog 9 ms (2 :: le_bytes 8 n) = Some (2, CSolStakerStakeTokens a m) /\
    js_parse prog 2 ms (2 :: le_bytes 8 n ++ [0]) = Some (2, c) /\
    unpack (2 :: le_bytes 8 n ++ [0]) = Err InvalidInstructionData.
Proof.
  unfold js_parse, from_bytes. remember (map fst ms) as ks eqn:EK. clear EK ms. intros H.
  split_accounts ks H. cbn [js_parser] in H |- *.
  unfold with_amount, andthen, done, read_num in H |- *. cbn in H. injection H as <-. 
  eexists _, _. split; [reflexivity|]. split; [reflexivity|]. split; reflexivity.
Qed.
Print Assumptions C66_parser_checks_kind_refuted.
Example C66_case :
  bytes (client_data unstake_call) /\ js_identify (client_data unstake_call) = Some 11 /\
  js_parse (e_prog denv) 11 (client_metas demo_ids unstake_call []) (client_data unstake_call ++ [5]) = Some (11, unstake_call) /\
  (exists c, js_parse 0 2 (client_metas demo_ids (CValidatorStakeTokens (StakeA 1 2 3 4 5 6 7 8 9 10 11 12) 5) [])
               (2 :: le_bytes 8 5) = Some (2, c)).
Proof.
  split; [vm_compute; repeat constructor|]. split; [vm_compute; reflexivity|]. split; [vm_compute; reflexivity|].
  eexists. vm_compute. reflexivity.
Qed.

(** ** C67: account codecs *)
(** What the decoded config shows of a stored one. *)
Definition reads_as (o : option N) (x : N) : Prop := (x = 0 /\ o = None) \/ (x <> 0 /\ o = Some x).
Record shows (j : js_config) (c : config) : Prop := Shows {
  sh_disc : j_disc j = [29; 229; 41; 226; 127; 163; 182; 254];
  sh_authority : reads_as (j_authority j) (cfg_authority c);
  sh_slash : reads_as (j_slash j) (cfg_slash c);
  sh_vault : j_vault j = cfg_vault c;
  sh_cooldown : j_cooldown j = cfg_cooldown c;
  sh_effective : j_effective j = cfg_effective c;
  sh_sync : j_sync j = cfg_sync c;
  sh_last : j_last j = cfg_last c;
  sh_hash : is_le 32 (cfg_duna c) (j_hash j);
  sh_acc : j_acc j = cfg_acc c;
  sh_bps : j_bps j = cfg_bps c;
  sh_bump : j_bump j = cfg_bump c;
  sh_padding : is_le 5 (cfg_padding c) (j_padding j) }.
Lemma reads_as_or_none x : reads_as (or_none x) x.
Proof. unfold reads_as, or_none. destruct (N.eqb_spec x 0); auto. Qed.
Lemma read_nullable n x b r : is_le n x b ->
  andthen (read_num n) (fun x => done (or_none x)) (b ++ r) = Some (or_none x, r).
Proof. intros H. unfold andthen. now rewrite (read_num_le _ _ _ _ H). Qed.
Theorem C67_js_config_reader b : bytes b ->
  (forall j, from_bytes js_config_decoder b = Some j -> j_disc j = [29; 229; 41; 226; 127; 163; 182; 254] ->
     exists c p q, b = p ++ q /\ wire_config c p /\ shows j c) /\
  (forall c p q, b = p ++ q -> wire_config c p ->
     exists j, from_bytes js_config_decoder b = Some j /\ shows j c /\ js_config_encoder j = Some p /\
               length p = js_config_size).
Proof.
  intros B. split.
  - intros j H D. unfold from_bytes in H. destruct (js_config_decoder b) as [[y r]|] eqn:E; [|discriminate].
    injection H as ->. unfold js_config_decoder in E. cbn [read nullable_address] in E.
    unfold andthen at 1 in E. destruct (read_bytes 8 b) as [[d r0]|] eqn:E0; [|discriminate].
    apply (read_bytes_inv _ _ _ _ B) in E0 as (-> & L & B0).
    unfold andthen, done in E.
    destruct (read_num 32 r0) as [[a r1]|] eqn:E1; [|discriminate]. apply (read_num_inv _ _ _ _ B0) in E1 as (p1 & -> & W1 & B1).
    destruct (read_num 32 r1) as [[s r2]|] eqn:E2; [|discriminate]. apply (read_num_inv _ _ _ _ B1) in E2 as (p2 & -> & W2 & B2).
    destruct (read_num 32 r2) as [[v r3]|] eqn:E3; [|discriminate]. apply (read_num_inv _ _ _ _ B2) in E3 as (p3 & -> & W3 & B3).
    destruct (read_num 8 r3) as [[cd r4]|] eqn:E4; [|discriminate]. apply (read_num_inv _ _ _ _ B3) in E4 as (p4 & -> & W4 & B4).
    destruct (read_num 8 r4) as [[ef r5]|] eqn:E5; [|discriminate]. apply (read_num_inv _ _ _ _ B4) in E5 as (p5 & -> & W5 & B5).
    destruct (read_num 8 r5) as [[sy r6]|] eqn:E6; [|discriminate]. apply (read_num_inv _ _ _ _ B5) in E6 as (p6 & -> & W6 & B6).
    destruct (read_num 8 r6) as [[la r7]|] eqn:E7; [|discriminate]. apply (read_num_inv _ _ _ _ B6) in E7 as (p7 & -> & W7 & B7).
    destruct (read_bytes 32 r7) as [[du r8]|] eqn:E8; [|discriminate]. apply (read_bytes_inv _ _ _ _ B7) in E8 as (-> & L8 & B8).
    destruct (read_num 16 r8) as [[ac r9]|] eqn:E9; [|discriminate]. apply (read_num_inv _ _ _ _ B8) in E9 as (p9 & -> & W9 & B9).
    destruct (read_num 2 r9) as [[bp r10]|] eqn:E10; [|discriminate]. apply (read_num_inv _ _ _ _ B9) in E10 as (p10 & -> & W10 & B10).
    destruct (read_num 1 r10) as [[bu r11]|] eqn:E11; [|discriminate]. apply (read_num_inv _ _ _ _ B10) in E11 as (p11 & -> & W11 & B11).
    destruct (read_bytes 5 r11) as [[pa r12]|] eqn:E12; [|discriminate]. apply (read_bytes_inv _ _ _ _ B11) in E12 as (-> & L12 & B12).
    injection E as <- <-. cbn in D. subst d.
    apply bytes_app in B7 as [BDU _]. apply bytes_app in B11 as [BPA _].
    pose proof (is_le_intro _ _ BDU L8) as WDU. pose proof (is_le_intro _ _ BPA L12) as WPA.
    exists (Cfg a s v cd ef sy la (le_num du) ac bp bu (le_num pa)).
    eexists _, _. split; [|split; [constructor; eassumption|]]; [now rewrite <- !app_assoc|].
    constructor; try reflexivity; try apply reads_as_or_none; assumption.
  - intros c p q -> W. pose proof (config_length _ _ W) as LEN. destruct W.
    exists (JsConfig [29; 229; 41; 226; 127; 163; 182; 254] (or_none (cfg_authority c)) (or_none (cfg_slash c)) (cfg_vault c)
              (cfg_cooldown c) (cfg_effective c) (cfg_sync c) (cfg_last c) du (cfg_acc c) (cfg_bps c) (cfg_bump c) pa).
    split; [|split; [|split; [|exact LEN]]].
    + unfold from_bytes, js_config_decoder. rewrite <- !app_assoc. cbn [read nullable_address].
      unfold andthen at 1. rewrite read_bytes_app by reflexivity.
      unfold andthen at 1. rewrite (read_nullable _ _ _ _ H).
      unfold andthen at 1. rewrite (read_nullable _ _ _ _ H0).
      do 5 (unfold andthen at 1; erewrite read_num_le by eassumption).
      unfold andthen at 1. rewrite read_bytes_app by (exact (is_le_length _ _ _ H6)).
      do 3 (unfold andthen at 1; erewrite read_num_le by eassumption).
      unfold andthen at 1. rewrite read_bytes_app by (exact (is_le_length _ _ _ H10)). reflexivity.
    + constructor; try reflexivity; try apply reads_as_or_none; assumption.
    + unfold js_config_encoder. cbn [j_disc j_authority j_slash j_vault j_cooldown j_effective j_sync j_last j_hash
        j_acc j_bps j_bump j_padding write nullable_address]. unfold address.
      assert (forall x, or_zero (or_none x) = x) as OZ.
      { intros x. unfold or_zero, or_none. destruct (N.eqb_spec x 0); auto. }
      rewrite !OZ.
      assert (forall n x b, is_le n x b -> uint n x = Some b) as UI.
      { intros n x b W. apply uint_ok. split; [exact (is_le_range _ _ _ W)|exact (is_le_eq _ _ _ W)]. }
      assert (forall n x b, is_le n x b -> array n b = Some b) as AR.
      { intros n x b (L & BB & _). unfold array. rewrite L, Nat.eqb_refl. cbn [andb].
        assert (forallb (fun x => x <? 256) b = true) as ->; [|reflexivity].
        apply forallb_forall. intros z I. apply N.ltb_lt. apply elem_of_list_In in I.
        exact (proj1 (Forall_forall _ _) BB z I). }
      assert (fix_bytes 32 du = du) as FD.
      { unfold fix_bytes. rewrite <- (is_le_length _ _ _ H6), firstn_app, Nat.sub_diag, firstn_O, app_nil_r.
        apply firstn_all. }
      rewrite FD, (AR _ _ _ H10).
      rewrite (UI _ _ _ H), (UI _ _ _ H0), (UI _ _ _ H1), (UI _ _ _ H2), (UI _ _ _ H3), (UI _ _ _ H4), (UI _ _ _ H5),
        (UI _ _ _ H7), (UI _ _ _ H8), (UI _ _ _ H9).
      cbn [struct array length Nat.eqb forallb andb]. cbn. now rewrite app_nil_r.
Qed.
Print Assumptions C67_js_config_reader.
(** Nothing is lost: what is shown determines the stored config. *)
Theorem C67_js_config_faithful j c c' : shows j c -> shows j c' -> c = c'.
Proof.
  intros [] []. destruct c, c'; cbn in *.
  assert (forall o x y, reads_as o x -> reads_as o y -> x = y) as RF.
  { intros o x y [[-> ->]|[? ->]] [[-> ?]|[? ?]]; congruence. }
  assert (forall n x y b, is_le n x b -> is_le n y b -> x = y) as LF by (intros n x y b (_ & _ & <-) (_ & _ & <-); reflexivity).
  f_equal; try congruence; eauto.
Qed.
Print Assumptions C67_js_config_faithful.

Lemma is_le_uint n x b : is_le n x b -> uint n x = Some b.
Proof. intros W. apply uint_ok. split; [exact (is_le_range _ _ _ W)|exact (is_le_eq _ _ _ W)]. Qed.
Lemma delegation_encodes d b : wire_del d b -> js_delegation_encoder d = Some b.
Proof.
  intros [d0 s e c a v h r H H0 H1 H2 H3 H4 H5]. unfold js_delegation_encoder, address.
  rewrite (is_le_uint _ _ _ H), (is_le_uint _ _ _ H0), (is_le_uint _ _ _ H1), (is_le_uint _ _ _ H2),
    (is_le_uint _ _ _ H3), (is_le_uint _ _ _ H4), (is_le_uint _ _ _ H5). cbn [struct]. now rewrite app_nil_r.
Qed.
Theorem C67_js_stake_readers b : bytes b ->
  (forall v, from_bytes js_val_decoder b = Some ([197; 173; 152; 124; 46; 252; 77; 146], v) <->
             exists p q, b = p ++ q /\ wire_val v p) /\
  (forall s, from_bytes js_sol_decoder b = Some ([192; 163; 150; 81; 162; 252; 198; 62], s) <->
             exists p q, b = p ++ q /\ wire_sol s p) /\
  (forall v, wire_val v b -> js_val_encoder ([197; 173; 152; 124; 46; 252; 77; 146], v) = Some b /\ length b = js_val_size) /\
  (forall s, wire_sol s b -> js_sol_encoder ([192; 163; 150; 81; 162; 252; 198; 62], s) = Some b /\ length b = js_sol_size).
Proof.
  intros B. split; [|split; [|split]].
  - intros v. exact (C60_validator_reader b v B).
  - intros s. exact (C60_staker_reader b s B).
  - intros v W. split; [|exact (val_length _ _ W)]. destruct W as [v d t m WD WT WM].
    unfold js_val_encoder. cbn [fst snd]. rewrite (delegation_encodes _ _ WD), (is_le_uint _ _ _ WT), (is_le_uint _ _ _ WM).
    cbn. now rewrite app_nil_r.
  - intros s W. split; [|exact (sol_length _ _ W)]. destruct W as [s d l n WD WL WN].
    unfold js_sol_encoder, address. cbn [fst snd].
    rewrite (delegation_encodes _ _ WD), (is_le_uint _ _ _ WL), (is_le_uint _ _ _ WN).
    cbn. now rewrite app_nil_r.
Qed.
Print Assumptions C67_js_stake_readers.
(** Kinds are not told apart, as in C60. *)
Theorem C67_js_reader_checks_kind_refuted s : sol_in_range s ->
  from_bytes js_val_decoder (enc_sol s) =
    Some ([192; 163; 150; 81; 162; 252; 198; 62], VStake (s_del s) (s_lamports s) (s_native s mod 2 ^ 64)).
Proof. exact (C60_reader_checks_kind_refuted s). Qed.
Print Assumptions C67_js_reader_checks_kind_refuted.
Definition some_config : config := Cfg 0 7 3 100 5 6 7 (2 ^ 200 + 1) 9 500 254 0.
Example C67_case :
  bytes (enc_config some_config) /\ wire_config some_config (enc_config some_config) /\
  option_map j_authority (from_bytes js_config_decoder (enc_config some_config ++ [1])) = Some None /\
  option_map j_slash (from_bytes js_config_decoder (enc_config some_config)) = Some (Some 7) /\
  match from_bytes js_config_decoder (enc_config some_config) with
  | Some j => js_config_encoder j = Some (enc_config some_config) | None => False end /\
  sol_in_range (SStake some_del 9 (2 ^ 64 + 7)).
Proof.
  split; [vm_compute; repeat constructor|].
  split; [apply enc_config_wire; vm_compute; repeat split|].
  split; [vm_compute; reflexivity|]. split; [vm_compute; reflexivity|].
  split; [vm_compute; reflexivity|]. vm_compute. repeat split.
Qed.

(** ** C68: nullable values *)
(** Both kinds write a number or zero and read zero as nothing; the Rust and JavaScript versions agree. *)
Theorem C68_nullable (x : N) (o : option N) b r :
  (is_le 32 x b -> read nullable_address (b ++ r) = Some (nullable_value x, r)) /\
  (is_le 8 x b -> read nullable_u64 (b ++ r) = Some (rust_nullable_u64 x, r)) /\
  (write nullable_address o = Some b <-> is_le 32 (nullable_from o) b) /\
  (write nullable_u64 o = Some b <-> is_le 8 (rust_nullable_u64_from o) b) /\
  (o <> Some 0 -> rust_nullable_u64 (rust_nullable_u64_from o) = o) /\
  reads_as (rust_nullable_u64 x) x /\ reads_as (nullable_value x) x.
Proof.
  assert (forall n y, uint n y = Some b <-> is_le n y b) as UL.
  { intros n y. rewrite uint_ok. split.
    - intros [L ->]. now apply is_le_bytes.
    - intros W. split; [exact (is_le_range _ _ _ W)|exact (is_le_eq _ _ _ W)]. }
  split; [intros W; exact (read_nullable _ _ _ _ W)|].
  split; [intros W; exact (read_nullable _ _ _ _ W)|].
  split; [apply UL|]. split; [apply UL|].
  split; [|split; apply reads_as_or_none].
  intros H. destruct o as [y|]; [|reflexivity]. unfold rust_nullable_u64, rust_nullable_u64_from.
  destruct (N.eqb_spec y 0); congruence.
Qed.
Print Assumptions C68_nullable.
(** Reading back what was written gives it back, so both codecs should combine. The address codec does, the
    number codec declares 8 bytes for writing and 32 for reading and cannot be built. *)
Theorem C68_codecs_combine_refuted :
  combine_codec nullable_address = Some nullable_address /\
  (forall o b, write nullable_u64 o = Some b -> length b = enc_size nullable_u64) /\
  (forall b v r, read nullable_u64 b = Some (v, r) -> length b = (enc_size nullable_u64 + length r)%nat) /\
  combine_codec nullable_u64 = None.
Proof.
  split; [reflexivity|]. split; [|split; [|reflexivity]].
  - intros o b H. cbn [write nullable_u64] in H. apply uint_ok in H as [_ ->]. apply le_bytes_length.
  - intros b v r H. cbn [read nullable_u64] in H. unfold andthen, done, read_num in H.
    destruct (8 <=? length b)%nat eqn:L; [|discriminate]. injection H as <- <-. apply Nat.leb_le in L.
    rewrite skipn_length. cbn [enc_size nullable_u64]. lia.
Qed.
Print Assumptions C68_codecs_combine_refuted.
Example C68_case :
  write nullable_u64 (Some 258) = Some [2; 1; 0; 0; 0; 0; 0; 0] /\
  read nullable_u64 ([2; 1; 0; 0; 0; 0; 0; 0] ++ [9]) = Some (Some 258, [9]) /\
  read nullable_u64 [0; 0; 0; 0; 0; 0; 0; 0] = Some (None, []).
Proof. repeat split. Qed.

(** ** C69: errors *)
(** A name's constant: [InvalidMint] becomes [INVALID_MINT]. *)
Definition is_upper (a : ascii) : bool := (65 <=? N_of_ascii a) && (N_of_ascii a <=? 90).
Definition upper (a : ascii) : ascii :=
  if (97 <=? N_of_ascii a) && (N_of_ascii a <=? 122) then ascii_of_N (N_of_ascii a - 32) else a.
Fixpoint words (s : string) : string :=
  match s with
  | EmptyString => EmptyString
  | String a r => if is_upper a then String "_" (String a (words r)) else String (upper a) (words r)
  end.
Definition constant_name (s : string) : string :=
  match s with EmptyString => EmptyString | String a r => String a (words r) end.
(** The JavaScript client names every custom error correctly and gives the program's message. *)
Theorem C69_js_errors x :
  In (constant_name (snd (stake_error_code x)), fst (stake_error_code x)) js_error_constants /\
  js_error_message (fst (stake_error_code x)) = Some (stake_error_message x) /\
  NoDup (map snd js_error_constants) /\ NoDup (map fst js_error_constants) /\
  (forall n, (exists m, js_error_message n = Some m) <-> n < 26).
Proof.
  split; [destruct x; vm_compute; tauto|].
  split; [destruct x; reflexivity|].
  split; [apply (bool_decide_unpack _); vm_compute; exact I|].
  split; [apply (bool_decide_unpack _); vm_compute; exact I|].
  intros n. split.
  - intros (m & H). unfold js_error_message in H.
    destruct (List.find (fun p => snd p =? n) js_error_constants) as [[nm k]|] eqn:F; [|discriminate].
    apply find_some in F as [FI FE]. cbn in FE. apply N.eqb_eq in FE as <-.
    assert (forallb (fun p : string * N => snd p <? 26) js_error_constants = true) as ALL by (vm_compute; reflexivity).
    apply N.ltb_lt. exact (proj1 (forallb_forall _ _) ALL _ FI).
  - intros L.
    assert (forallb (fun k => match js_error_message (N.of_nat k) with Some _ => true | None => false end) (seq 0 26) = true)
      as ALL by (vm_compute; reflexivity).
    assert (In (N.to_nat n) (seq 0 26)) as I by (apply in_seq; lia).
    pose proof (proj1 (forallb_forall _ _) ALL _ I) as T. cbv beta in T. rewrite N2Nat.id in T.
    destruct (js_error_message n); [eauto|discriminate].
Qed.
Print Assumptions C69_js_errors.
Example C69_case : constant_name "MaximumDeactivationAmountExceeded" = "MAXIMUM_DEACTIVATION_AMOUNT_EXCEEDED"%string /\
  js_error_message 13 = Some "Amount exeeds maximum deactivation amount"%string /\ js_error_message 26 = None.
Proof. repeat split. Qed.
