(** What is assumed about hashing, and when a seed list is usable. *)
From Verif Require Import Base Types Layout Pda.

(** A seed list that leaves room for the bump and respects the length limit. *)
Definition seeds_ok (seeds : list (list N)) : Prop :=
  (length seeds < MAX_SEEDS)%nat /\ forall s, In s seeds -> (length s <= MAX_SEED_LEN)%nat.

(** The bytes that are hashed. *)
Definition preimage (h : hashing) (seeds : list (list N)) (bump : N) (prog : pubkey) : list N :=
  List.concat seeds ++ bump :: h_bytes h prog ++ PDA_MARKER.

(** The hash has no collisions, keys are 32 bytes, and some bump leads off the curve. *)
Record hash_ok (h : hashing) : Prop := {
  ho_inj : forall a b, h_hash h a = h_hash h b -> a = b;
  ho_len : forall k, length (h_bytes h k) = 32%nat;
  ho_bytes : forall k k', h_bytes h k = h_bytes h k' -> k = k';
  ho_bump : forall seeds prog, seeds_ok seeds ->
    exists b, 1 <= b <= 255 /\ h_curve h (h_hash h (preimage h seeds b prog)) = false;
}.

(** [k] is the address of [seeds] under [prog]: off the curve, with the largest such bump. *)
Definition derived (h : hashing) (seeds : list (list N)) (prog k : pubkey) (b : N) : Prop :=
  1 <= b <= 255 /\ k = h_hash h (preimage h seeds b prog) /\ h_curve h k = false /\
  forall b', b < b' <= 255 -> h_curve h (h_hash h (preimage h seeds b' prog)) = true.
