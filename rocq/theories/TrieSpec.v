(** Independent specification of the Merkle radix trie (package trie): contents
    are finite maps from byte-string keys to values; the root hash is the hash
    of the compressed 16-ary radix tree of the contents. *)
From Verif Require Export MerkleSpec.
From stdpp Require Export gmap sorting.
Global Open Scope N_scope.

(** The 4-bit digits of a byte string, most significant first. *)
Definition nibbles (k : list N) : list N := flat_map (fun b => [b / 16; b mod 16]) k.
Definition is_nibbles (l : list N) : Prop := Forall (fun x => x < 16) l.

(** No key of the universe is a proper prefix of another one. *)
Definition prefix_free (K : list N -> Prop) : Prop :=
  forall a b, K a -> K b -> a `prefix_of` b -> a = b.

(** Operations of a map and their effect on its contents. *)
Inductive mop (V : Type) := MPut (k : list N) (v : V) | MDel (k : list N).
Arguments MPut {V}. Arguments MDel {V}.
Definition mop_key {V} (o : mop V) : list N := match o with MPut k _ => k | MDel k => k end.
Definition mop_step {V} (m : gmap (list N) V) (o : mop V) : gmap (list N) V :=
  match o with MPut k v => <[k := v]> m | MDel k => delete k m end.
Definition mop_run {V} (ops : list (mop V)) (m : gmap (list N) V) : gmap (list N) V :=
  fold_left mop_step ops m.

(** Compressed 16-ary radix tree. *)
Inductive radix (V : Type) := Radix (pre : list N) (ch : list (option (radix V))) (v : option V).
Arguments Radix {V}.

Section radix.
Context {V : Type}.
Implicit Types (es : list (list N * V)) (r : radix V).

(** Longest common prefix. *)
Fixpoint lcp2 (a b : list N) : list N :=
  match a, b with
  | x :: a', y :: b' => if x =? y then x :: lcp2 a' b' else []
  | _, _ => []
  end.
Fixpoint lcp (ks : list (list N)) : list N :=
  match ks with [] => [] | [k] => k | k :: ks' => lcp2 k (lcp ks') end.

(** What is left of [k] after the prefix [p]. *)
Fixpoint strip (p k : list N) : option (list N) :=
  match p, k with
  | [], _ => Some k
  | x :: p', y :: k' => if x =? y then strip p' k' else None
  | _ :: _, [] => None
  end.

(** The entries below [p ++ [i]] and the value exactly at [p]. *)
Fixpoint under (p : list N) (i : N) es : list (list N * V) :=
  match es with
  | [] => []
  | (k, v) :: es' => match strip (p ++ [i]) k with
                     | Some k' => (k', v) :: under p i es'
                     | None => under p i es' end
  end.
Fixpoint exactly (p : list N) es : option V :=
  match es with
  | [] => None
  | (k, v) :: es' => if bool_decide (k = p) then Some v else exactly p es'
  end.

Definition nibs : list N := [0;1;2;3;4;5;6;7;8;9;10;11;12;13;14;15].

(** The radix tree of a set of entries; [fuel] is larger than every key. *)
Fixpoint rbuild (fuel : nat) es : option (radix V) :=
  match es, fuel with
  | [], _ | _, O => None
  | _, S f => let p := lcp (map fst es) in
              Some (Radix p (map (fun i => rbuild f (under p i es)) nibs) (exactly p es))
  end.
Definition empty_radix : radix V := Radix [] (replicate 16 None) None.
Definition radix_of (m : gmap (list N) V) : radix V :=
  let es := map (fun '(k, v) => (nibbles k, v)) (map_to_list m) in
  default empty_radix (rbuild (S (length (concat (map fst es)))) es).
End radix.

Section hash.
Context {V : Type} (H : list N -> list N) (rtl : list N -> list N) (vhash : V -> list N).

(** Two nibbles per byte; an odd first nibble is kept elsewhere (in the type byte). *)
Fixpoint pack2 (l : list N) : list N :=
  match l with a :: b :: l' => a * 16 + b :: pack2 l' | _ => [] end.
Definition pack (p : list N) : list N := if Nat.odd (length p) then pack2 (tail p) else pack2 p.

Fixpoint bits_num (l : list bool) : N :=
  match l with [] => 0 | b :: l' => N.b2n b + 2 * bits_num l' end.

(** The header of a node: type byte (0x80 prefix, 0x40 children, 0x20 value,
    0x10 odd prefix whose first nibble is in the low half), packed prefix and
    the bit set of the present children. *)
Definition type_byte (pre : list N) (present : list bool) (hasv : bool) : N :=
  (match pre with
   | [] => 0
   | x :: _ => if Nat.odd (length pre) then 0x90 + x else 0x80
   end) + (if existsb id present then 0x40 else 0) + (if hasv then 0x20 else 0).
Definition header_bytes (pre : list N) (present : list bool) (hasv : bool) : list N :=
  type_byte pre present hasv ::
  (match pre with [] => [] | _ => rtl (pack pre) end) ++
  (if existsb id present then [bits_num (take 8 present); bits_num (drop 8 present)] else []).

Definition present (ch : list (option (radix V))) : list bool :=
  map (fun o => match o with Some _ => true | None => false end) ch.
Fixpoint somes {A} (l : list (option A)) : list A :=
  match l with [] => [] | Some x :: l' => x :: somes l' | None :: l' => somes l' end.

(** Root hash: H(H(H(header) ++ H(value)) ++ Merkle root of the children). *)
Fixpoint rhash (r : radix V) : list N :=
  match r with
  | Radix pre ch v =>
      let left := H (H (header_bytes pre (present ch) (bool_decide (is_Some v))) ++
                     match v with Some x => vhash x | None => nilhash H end) in
      match somes (map (option_map rhash) ch) with
      | [] => left
      | hs => H (left ++ proot H hs)
      end
  end.

(** Every string that is hashed while computing [rhash]. *)
Fixpoint rinputs (r : radix V) : list (list N) :=
  match r with
  | Radix pre ch v =>
      let hd := header_bytes pre (present ch) (bool_decide (is_Some v)) in
      let lin := H hd ++ match v with Some x => vhash x | None => nilhash H end in
      let hs := somes (map (option_map rhash) ch) in
      [hd; lin] ++
      (match hs with [] => [] | _ => (H lin ++ proot H hs) :: ptree_inputs H hs (mdepth (length hs)) end) ++
      concat (somes (map (option_map rinputs) ch))
  end.

(** The root hash of contents [m]. *)
Definition root_of (m : gmap (list N) V) : list N := rhash (radix_of m).
Definition root_inputs (m : gmap (list N) V) : list (list N) := rinputs (radix_of m).

End hash.

(** A family of maps with a register of committed contents: the meaning of
    several tries that share one database. Operations address a trie of the
    family by number; Clone, Open and Inherit add one at the end. Count is
    counted from the moment a trie was created. *)
Inductive tcall (V : Type) :=
| TPut (k : list N) (v : V) | TDel (k : list N) | TGet (k : list N)
| THash | TCommit | TCollapse | TCount | TIsEmpty
| TClone | TOpen (i : nat) | TInherit (i : nat).
Arguments TPut {V}. Arguments TDel {V}. Arguments TGet {V}. Arguments THash {V}.
Arguments TCommit {V}. Arguments TCollapse {V}. Arguments TCount {V}. Arguments TIsEmpty {V}.
Arguments TClone {V}. Arguments TOpen {V}. Arguments TInherit {V}.
Inductive tobs (V : Type) :=
| OChanged (b : bool) | ODeleted (b : bool) (old : option V) | OVal (o : option V)
| OHash (h : list N) | OCount (z : Z) | OBool (b : bool) | ODone | OFail.
Arguments OChanged {V}. Arguments ODeleted {V}. Arguments OVal {V}. Arguments OHash {V}.
Arguments OCount {V}. Arguments OBool {V}. Arguments ODone {V}. Arguments OFail {V}.

Record pool (V : Type) := Pool {
  p_maps : list (gmap (list N) V * Z);   (* contents and number of entries at creation *)
  p_roots : list (gmap (list N) V);      (* committed contents *)
}.
Arguments Pool {V}. Arguments p_maps {V}. Arguments p_roots {V}.

Section pool.
Context {V : Type} (root : gmap (list N) V -> list N).
Implicit Types (p : pool V) (m : gmap (list N) V).
Definition zsize m : Z := Z.of_nat (size m).
Definition p_set p (j : nat) m (b : Z) : pool V := Pool (<[j := (m, b)]> (p_maps p)) (p_roots p).
Definition p_add p m : pool V := Pool (p_maps p ++ [(m, zsize m)]) (p_roots p).
Definition pstep p (jo : nat * tcall V) : pool V * tobs V :=
  let '(j, o) := jo in
  match p_maps p !! j with
  | None => (p, ODone)
  | Some (m, b) =>
      match o with
      | TPut k v => (p_set p j (<[k := v]> m) b, OChanged true)
      | TDel k => (p_set p j (delete k m) b, ODeleted (bool_decide (is_Some (m !! k))) (m !! k))
      | TGet k => (p, OVal (m !! k))
      | THash => (p, OHash (root m))
      | TCommit => (Pool (p_maps p) (p_roots p ++ [m]), ODone)
      | TCollapse => (p, ODone)
      | TCount => (p, OCount (zsize m - b)%Z)
      | TIsEmpty => (p, OBool (bool_decide (m = ∅)))
      | TClone => (p_add p m, ODone)
      | TOpen i | TInherit i =>
          match p_roots p !! i with Some m' => (p_add p m', ODone) | None => (p, ODone) end
      end
  end.
Fixpoint prun (ops : list (nat * tcall V)) p : pool V * list (tobs V) :=
  match ops with
  | [] => (p, [])
  | o :: ops' => let '(p1, ob) := pstep p o in let '(p2, obs) := prun ops' p1 in (p2, ob :: obs)
  end.
(** Every contents reached on the way. *)
Fixpoint pvisited (ops : list (nat * tcall V)) p : list (gmap (list N) V) :=
  map fst (p_maps p) ++ match ops with [] => [] | o :: ops' => pvisited ops' (pstep p o).1 end.
Definition pool0 : pool V := Pool [(∅, 0%Z)] [].
Definition tcall_keys (o : tcall V) : list (list N) :=
  match o with TPut k _ | TDel k | TGet k => [k] | _ => [] end.
Definition tcall_vals (o : tcall V) : list V := match o with TPut _ v => [v] | _ => [] end.
End pool.

(** The plain map calls on one trie, and what a finite map answers. *)
Fixpoint map_obs {V} (ops : list (tcall V)) (m : gmap (list N) V) : list (tobs V) :=
  match ops with
  | [] => []
  | TPut k v :: r => OChanged true :: map_obs r (<[k := v]> m)
  | TDel k :: r => ODeleted (bool_decide (is_Some (m !! k))) (m !! k) :: map_obs r (delete k m)
  | TGet k :: r => OVal (m !! k) :: map_obs r m
  | TCount :: r => OCount (Z.of_nat (size m)) :: map_obs r m
  | TIsEmpty :: r => OBool (bool_decide (m = ∅)) :: map_obs r m
  | _ :: r => ODone :: map_obs r m
  end.
Definition basic {V} (o : tcall V) : Prop :=
  match o with TPut _ _ | TDel _ | TGet _ | TCount | TIsEmpty => True | _ => False end.


(** A run without its Collapse calls, and the observations that remain. *)
Definition is_collapse {V} (o : tcall V) : bool := match o with TCollapse => true | _ => false end.
Fixpoint uncollapse {V} (ops : list (nat * tcall V)) : list (nat * tcall V) :=
  match ops with
  | [] => []
  | (j, o) :: r => if is_collapse o then uncollapse r else (j, o) :: uncollapse r
  end.
Fixpoint keep_obs {V} (ops : list (nat * tcall V)) (obs : list (tobs V)) : list (tobs V) :=
  match ops, obs with
  | (_, o) :: r, ob :: obs' => if is_collapse o then keep_obs r obs' else ob :: keep_obs r obs'
  | _, _ => []
  end.
