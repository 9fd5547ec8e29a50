(** Specification of block headers and header summaries as keyed Merkle trees
    (the layout described in the comments of trie/proof.go:97 and 195-203). *)
From Verif Require Import Base MerkleSpec.

(** The position of a header: chain id (4 bytes) and height (8 bytes), big endian. *)
Definition pos_key (chain height : N) : list N := be_fixed 4 chain ++ be_fixed 8 height.
(** The position of a header property: also its number (1 byte). *)
Definition header_key (chain height index : N) : list N := pos_key chain height ++ [index].

(** A keyed tree: a list of (key, hash) entries; entry (k, p) is the leaf H (H k ++ p). *)
Definition keyed_leaf (H : list N -> list N) (e : list N * list N) : list N := H (H e.1 ++ e.2).
Definition keyed_root (H : list N -> list N) (l : list (list N * list N)) : list N := proot H (map (keyed_leaf H) l).
(** Everything that is hashed while the root is computed, and the padding. *)
Definition keyed_inputs (H : list N -> list N) (l : list (list N * list N)) : list (list N) :=
  [] :: map fst l ++ map (fun e => H e.1 ++ e.2) l ++ ptree_inputs H (map (keyed_leaf H) l) (mdepth (length l)).

(** A header: the list of its property hashes, property number i at place i. *)
Definition header_entries (chain height : N) (props : list (list N)) : list (list N * list N) :=
  imap (fun i p => (header_key chain height (N.of_nat i), p)) props.
Definition header_hash (H : list N -> list N) (chain height : N) (props : list (list N)) : list N :=
  keyed_root H (header_entries chain height props).
(** A list of header summaries: chain, height and header hash of each. *)
Definition hds_entries (l : list (N * N * list N)) : list (list N * list N) :=
  map (fun e => (pos_key e.1.1 e.1.2, e.2)) l.
Definition hds_root (H : list N -> list N) (l : list (N * N * list N)) : list N := keyed_root H (hds_entries l).

(** The number of the header property that a proof type stands for. *)
Inductive property_index : N -> N -> Prop :=
  | pi_deltas : property_index 0x20 12
  | pi_history : property_index 0x21 1
  | pi_state : property_index 0x23 13
  | pi_vcc : property_index 0x24 16
  | pi_ccc : property_index 0x25 17
  | pi_hds : property_index 0x26 20
  | pi_base i : i < 112 -> property_index (0x30 + i) i.
