(** C27, C28: instruction and account byte formats. *)
From Verif Require Import Base Types Layout Instr SpecWire Codec.

(** ** C27 *)
Theorem C27_round_trip i : instr_in_range i -> unpack (pack i) = Ok i.
Proof. intros H. exact (wire_unpack _ _ (pack_wire _ H)). Qed.
Print Assumptions C27_round_trip.

Theorem C27_injective i j : instr_in_range i -> instr_in_range j -> pack i = pack j -> i = j.
Proof.
  intros A B E. apply (wire_fun _ _ (pack i)); [now apply pack_wire|rewrite E; now apply pack_wire].
Qed.
Print Assumptions C27_injective.

(** Accepted byte strings are exactly the documented ones; the packed form is one of them. *)
Theorem C27_accepts_exactly i data : bytes data -> (unpack data = Ok i <-> wire i data).
Proof. intros B. split; [now apply unpack_wire|apply wire_unpack]. Qed.
Print Assumptions C27_accepts_exactly.

Theorem C27_rejects_cleanly data : bytes data -> (forall i, ~ wire i data) ->
  unpack data = Err InvalidInstructionData.
Proof.
  intros B W. destruct (unpack_total data) as [(i & H)|H]; [|exact H].
  destruct (W i). now apply unpack_wire.
Qed.
Print Assumptions C27_rejects_cleanly.

Theorem C27_never_panics data : unpack data <> Panic.
Proof. destruct (unpack_total data) as [(i & H)|H]; rewrite H; discriminate. Qed.
Print Assumptions C27_never_panics.

Theorem C27_packed_documented i : instr_in_range i -> wire i (pack i).
Proof. exact (pack_wire i). Qed.
Print Assumptions C27_packed_documented.

(** Two readings of one byte string never differ. *)
Theorem C27_unambiguous i j data : wire i data -> wire j data -> i = j.
Proof. exact (wire_fun i j data). Qed.
Print Assumptions C27_unambiguous.

Example C27_case :
  instr_in_range (IInitializeConfig 1 2 3 500 5 (2 ^ 255)) /\
  instr_in_range (IUpdateConfig (MaxDeactivationBasisPoints 65535)) /\
  bytes (1 :: [7; 7]) /\ wire IInitializeValidatorStake (1 :: [7; 7]) /\
  wire (ISlashValidatorStake 258) (5 :: [2; 1; 0; 0; 0; 0; 0; 0]) /\
  (forall i, ~ wire i [6; 2]) /\ (forall i, ~ wire i [2; 1]).
Proof.
  split; [cbn; repeat split; lia|]. split; [cbn; lia|]. split; [repeat constructor|].
  split; [constructor|]. split; [constructor; repeat split; repeat constructor|].
  split; intros i W; apply wire_unpack in W; discriminate W.
Qed.

(** ** C28 *)
Theorem C28_config_round_trip c : config_in_range c ->
  unpack_bytes 192 disc_config dec_config (enc_config c) = Ok c /\ length (enc_config c) = 192%nat.
Proof.
  intros H. apply enc_config_wire in H. split; [|eapply config_length; eauto].
  apply unpack_bytes_ok. split; [eapply config_length; eauto|]. split; [reflexivity|].
  symmetry. eapply config_dec; eauto.
Qed.
Print Assumptions C28_config_round_trip.
Theorem C28_validator_round_trip v : val_in_range v ->
  unpack_bytes 144 disc_val dec_val (enc_val v) = Ok v /\ length (enc_val v) = 144%nat.
Proof.
  intros H. apply enc_val_wire in H. split; [|eapply val_length; eauto].
  apply unpack_bytes_ok. split; [eapply val_length; eauto|]. split; [reflexivity|].
  symmetry. eapply val_dec; eauto.
Qed.
Print Assumptions C28_validator_round_trip.
Theorem C28_staker_round_trip v : sol_in_range v ->
  unpack_bytes 168 disc_sol dec_sol (enc_sol v) = Ok v /\ length (enc_sol v) = 168%nat.
Proof.
  intros H. apply enc_sol_wire in H. split; [|eapply sol_length; eauto].
  apply unpack_bytes_ok. split; [eapply sol_length; eauto|]. split; [reflexivity|].
  symmetry. eapply sol_dec; eauto.
Qed.
Print Assumptions C28_staker_round_trip.

(** A byte string is accepted exactly when it has the documented layout, and the
    values read are the documented ones. *)
Theorem C28_accepts_exactly b : bytes b ->
  (forall c, unpack_bytes 192 disc_config dec_config b = Ok c <-> wire_config c b) /\
  (forall v, unpack_bytes 144 disc_val dec_val b = Ok v <-> wire_val v b) /\
  (forall s, unpack_bytes 168 disc_sol dec_sol b = Ok s <-> wire_sol s b).
Proof. intros B. repeat split; intros; first [now apply config_unpack|now apply val_unpack|now apply sol_unpack]. Qed.
Print Assumptions C28_accepts_exactly.

(** The readers used by the handlers behave like the byte-level ones. *)
Theorem C28_handlers_read_bytes b :
  unpack_config (decode b) = unpack_bytes 192 disc_config dec_config b /\
  unpack_val (decode b) = unpack_bytes 144 disc_val dec_val b /\
  unpack_sol (decode b) = unpack_bytes 168 disc_sol dec_sol b.
Proof. split; [apply unpack_config_bytes|split; [apply unpack_val_bytes|apply unpack_sol_bytes]]. Qed.
Print Assumptions C28_handlers_read_bytes.

Theorem C28_one_type b :
  (forall c v, wire_config c b -> ~ wire_val v b) /\
  (forall c s, wire_config c b -> ~ wire_sol s b) /\
  (forall v s, wire_val v b -> ~ wire_sol s b).
Proof.
  repeat split; intros x y A B.
  - apply config_length in A. apply val_length in B. congruence.
  - apply config_length in A. apply sol_length in B. congruence.
  - apply val_length in A. apply sol_length in B. congruence.
Qed.
Print Assumptions C28_one_type.
(** Not only by size: the discriminators differ too, so bytes of one type padded or cut
    to another size are still refused. *)
Theorem C28_discriminators b p q : 
  (unpack_bytes (length b) disc_config (fun x => x) b = Ok p -> unpack_bytes (length b) disc_val (fun x => x) b <> Ok q) /\
  (unpack_bytes (length b) disc_config (fun x => x) b = Ok p -> unpack_bytes (length b) disc_sol (fun x => x) b <> Ok q) /\
  (unpack_bytes (length b) disc_val (fun x => x) b = Ok p -> unpack_bytes (length b) disc_sol (fun x => x) b <> Ok q).
Proof.
  repeat split; intros A B; apply unpack_bytes_ok in A as (_ & A & _), B as (_ & B & _);
    rewrite A in B; discriminate B.
Qed.
Print Assumptions C28_discriminators.

Theorem C28_zeroed_refused b : Forall (fun x => x = 0) b ->
  (forall c, unpack_bytes 192 disc_config dec_config b <> Ok c) /\
  (forall c, unpack_bytes 144 disc_val dec_val b <> Ok c) /\
  (forall c, unpack_bytes 168 disc_sol dec_sol b <> Ok c).
Proof. exact (zero_unpack b). Qed.
Print Assumptions C28_zeroed_refused.

(** Equal bytes mean equal contents. *)
Theorem C28_injective :
  (forall c c', config_in_range c -> config_in_range c' -> enc_config c = enc_config c' -> c = c') /\
  (forall v v', val_in_range v -> val_in_range v' -> enc_val v = enc_val v' -> v = v') /\
  (forall s s', sol_in_range s -> sol_in_range s' -> enc_sol s = enc_sol s' -> s = s').
Proof.
  split; [|split]; intros x y A B E.
  - apply enc_config_wire, config_dec in A. apply enc_config_wire, config_dec in B. congruence.
  - apply enc_val_wire, val_dec in A. apply enc_val_wire, val_dec in B. congruence.
  - apply enc_sol_wire, sol_dec in A. apply enc_sol_wire, sol_dec in B. congruence.
Qed.
Print Assumptions C28_injective.

Example C28_case :
  let d := Del 1000 900 77 (2 ^ 200) 5 (2 ^ 127) 9 in
  config_in_range (Cfg 1 2 3 4 5 6 7 8 (2 ^ 128 - 1) 10000 255 0) /\
  val_in_range (VStake d 11 12) /\ sol_in_range (SStake d 13 14) /\
  (exists b, bytes b /\ wire_val (VStake d 11 12) b) /\ Forall (fun x => x = 0) (repeat 0 192).
Proof.
  cbn zeta. unfold config_in_range, val_in_range, sol_in_range, del_in_range. cbn.
  split; [repeat split; lia|]. split; [repeat split; lia|]. split; [repeat split; lia|].
  split.
  - exists (enc_val (VStake (Del 1000 900 77 (2 ^ 200) 5 (2 ^ 127) 9) 11 12)).
    split; [|apply enc_val_wire; unfold val_in_range, del_in_range; cbn; repeat split; lia].
    unfold bytes. apply Forall_forall. intros x. 
    assert (F : forallb (fun x => x <? 256) (enc_val (VStake (Del 1000 900 77 (2 ^ 200) 5 (2 ^ 127) 9) 11 12)) = true)
      by (vm_compute; reflexivity).
    rewrite forallb_forall in F. intros I. apply N.ltb_lt, F. now apply elem_of_list_In.
  - repeat constructor.
Qed.
