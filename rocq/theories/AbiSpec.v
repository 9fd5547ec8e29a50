(** Specification of the contract ABI encoding, written from the Solidity ABI
    specification and not from the code: which Go values belong to a type, and how
    they are laid out in 32-byte words. It shares only the syntax of types and
    values with AbiModel.v. *)
From Verif Require Export AbiModel.
Global Open Scope N_scope.

(** A 32-byte big-endian two's complement word. *)
Definition word (z : Z) : list N := be_fixed 32 (Z.to_N (z mod 2 ^ 256)).

(** Types: bytesN with 1..32 bytes, integers of 1..256 bits, and no static type of
    size zero (empty arrays of static elements, empty tuples). *)
Fixpoint dynamic (t : aty) : bool :=
  match t with
  | TString | TBytes | TSlice _ => true
  | TArray e _ => dynamic e
  | TTuple ts => existsb dynamic ts
  | _ => false
  end.
Fixpoint valid_type (t : aty) : Prop :=
  match t with
  | TInt n | TUint n => 1 <= n <= 256
  | TFixedBytes n => (1 <= n <= 32)%nat
  | TSlice e => valid_type e
  | TArray e k => valid_type e /\ (dynamic e = true \/ (1 <= k)%nat)
  | TTuple ts => ts <> [] /\ fold_right (fun t P => valid_type t /\ P) True ts
  | _ => True
  end.

(** Number of words of the head of a type: its own size if static, one word (the
    offset) if dynamic. *)
Fixpoint words_of (t : aty) : nat :=
  match t with
  | TArray e k => if dynamic e then 1 else (k * words_of e)%nat
  | TTuple ts => if existsb dynamic ts then 1%nat else fold_right (fun t n => (words_of t + n)%nat) 0%nat ts
  | _ => 1
  end.

(** Integers of 8, 16, 32 and 64 bits are Go's machine integers, all others are
    *big.Int. *)
Definition machine_kind (unsigned : bool) (n : N) : nkind :=
  match n with
  | 8 => if unsigned then KU8 else KI8
  | 16 => if unsigned then KU16 else KI16
  | 32 => if unsigned then KU32 else KI32
  | 64 => if unsigned then KU64 else KI64
  | _ => KBig
  end.
(** Bits a value of that Go type may use: those of the machine type, or a word. *)
Definition value_bits (n : N) : Z :=
  match n with 8 => 8%Z | 16 => 16%Z | 32 => 32%Z | 64 => 64%Z | _ => 256%Z end.
Definition in_range (unsigned : bool) (w : Z) (z : Z) : Prop :=
  if unsigned then (0 <= z < 2 ^ w)%Z else (- 2 ^ (w - 1) <= z < 2 ^ (w - 1))%Z.

(** [value_of t v]: the Go value v belongs to the ABI type t. *)
Inductive value_of : aty -> val -> Prop :=
| vo_int n z : in_range false (value_bits n) z -> value_of (TInt n) (VNum (machine_kind false n) z)
| vo_uint n z : in_range true (value_bits n) z -> value_of (TUint n) (VNum (machine_kind true n) z)
| vo_bool b : value_of TBool (VBool b)
| vo_string s : is_bytes s -> value_of TString (VString s)
| vo_bytes s : is_bytes s -> value_of TBytes (VBytes s)
| vo_address s : is_bytes s -> length s = 20%nat -> value_of TAddress (VArr s)
| vo_fixed n s : is_bytes s -> length s = n -> value_of (TFixedBytes n) (VArr s)
| vo_function s : is_bytes s -> length s = 24%nat -> value_of TFunction (VArr s)
| vo_slice e vs : Forall (value_of e) vs -> value_of (TSlice e) (VList vs)
| vo_array e vs : Forall (value_of e) vs -> value_of (TArray e (length vs)) (VList vs)
| vo_tuple ts vs : Forall2 value_of ts vs -> value_of (TTuple ts) (VTuple vs).

(** Layout of a sequence of parts (dynamic?, encoding): static parts stand in the
    head; for a dynamic part the head has the distance from the start of the
    sequence to its encoding, and the encodings follow the head in order. *)
Definition head_len (p : bool * list N) : nat := if p.1 then 32 else length p.2.
Definition tail_of (p : bool * list N) : list N := if p.1 then p.2 else [].
Fixpoint heads (off : nat) (ps : list (bool * list N)) : list N :=
  match ps with
  | [] => []
  | (true, x) :: r => word (Z.of_nat off) ++ heads (off + length x) r
  | (false, x) :: r => x ++ heads off r
  end.
Definition tails (ps : list (bool * list N)) : list N := concat (map tail_of ps).
Definition layout (ps : list (bool * list N)) : list N :=
  heads (sum_list (map head_len ps)) ps ++ tails ps.

Definition pad_right (s : list N) : list N :=
  s ++ replicate ((32 - length s mod 32) mod 32)%nat 0.
Definition pad_left (s : list N) : list N := replicate (32 - length s) 0 ++ s.

Fixpoint enc (t : aty) (v : val) {struct t} : list N :=
  match t, v with
  | TInt _, VNum _ z | TUint _, VNum _ z => word z
  | TBool, VBool b => word (if b then 1 else 0)
  | TString, VString s | TBytes, VBytes s => word (Z.of_nat (length s)) ++ pad_right s
  | TAddress, VArr s => pad_left s
  | TFixedBytes _, VArr s | TFunction, VArr s => pad_right s
  | TSlice e, VList vs => word (Z.of_nat (length vs)) ++ layout (map (fun v => (dynamic e, enc e v)) vs)
  | TArray e _, VList vs => layout (map (fun v => (dynamic e, enc e v)) vs)
  | TTuple ts, VTuple vs =>
      layout ((fix go ts vs := match ts, vs with
                               | t :: ts', v :: vs' => (dynamic t, enc t v) :: go ts' vs'
                               | _, _ => []
                               end) ts vs)
  | _, _ => []
  end.
(** The arguments of a call are encoded like a tuple. *)
Definition enc_args (ts : list aty) (vs : list val) : list N := enc (TTuple ts) (VTuple vs).

(** Where decoded values come from: every string, byte string and byte array is a
    piece of the data, and no list has more elements than the data has words. *)
Definition piece (x data : list N) : Prop := exists pre post, data = pre ++ x ++ post.
Inductive from_data (data : list N) : val -> Prop :=
| fd_num k z : from_data data (VNum k z)
| fd_bool b : from_data data (VBool b)
| fd_string s : piece s data -> from_data data (VString s)
| fd_bytes s : piece s data -> from_data data (VBytes s)
| fd_arr s : piece s data -> from_data data (VArr s)
| fd_list vs : (32 * length vs <= length data)%nat -> Forall (from_data data) vs -> from_data data (VList vs)
| fd_tuple vs : Forall (from_data data) vs -> from_data data (VTuple vs).

(** No bytesN with N > 32 inside. *)
Fixpoint fits (t : aty) : Prop :=
  match t with
  | TFixedBytes n => (n <= 32)%nat
  | TSlice e | TArray e _ => fits e
  | TTuple ts => fold_right (fun t P => fits t /\ P) True ts
  | _ => True
  end.

(** What Pack checks about a value: the Go kind of each number, string, byte string
    and byte array, the length of bytesN and of fixed arrays, the fields of structs;
    not the range of a *big.Int nor the length of an address or function value. *)
Inductive shaped : aty -> val -> Prop :=
| sh_int n z : shaped (TInt n) (VNum (machine_kind false n) z)
| sh_uint n z : shaped (TUint n) (VNum (machine_kind true n) z)
| sh_bool b : shaped TBool (VBool b)
| sh_string s : shaped TString (VString s)
| sh_bytes s : shaped TBytes (VBytes s)
| sh_address s : shaped TAddress (VArr s)
| sh_fixed n s : length s = n -> shaped (TFixedBytes n) (VArr s)
| sh_function s : shaped TFunction (VArr s)
| sh_slice e vs : Forall (shaped e) vs -> shaped (TSlice e) (VList vs)
| sh_array e vs : Forall (shaped e) vs -> shaped (TArray e (length vs)) (VList vs)
| sh_tuple ts vs : Forall2 shaped ts vs -> shaped (TTuple ts) (VTuple vs).
