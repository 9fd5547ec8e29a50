(** The process-wide tables of basic.go as seen by other threads: LastBlockMap under its
    mutex, the reserved address registry under its RWMutex. Used with LockModel.v. One
    micro-step is one access to a Go map. Left out: the log lines. *)
From stdpp Require Import gmap.
From Verif Require Import LockModel BasicModel.
Global Open Scope N_scope.

(* -------------------------------------------------- LastBlockMap, basic.go:224-249 *)
Inductive lblocal := LB0 (o : lbop) | LBCas1 (k v : N).
Definition lb_kind (o : lbop) : lkind := Excl.      (* a sync.Mutex *)
Definition lb_next (ch : nat) (m : gmap N N) (l : lblocal) : option (gmap N N * (lblocal + lbres)) :=
  match l with
  | LB0 (LBSet k v) => Some (<[k:=v]> m, inr LBUnit)                  (* basic.go:227 *)
  | LB0 (LBGet k) => Some (m, inr (LBVal (m !! k)))                   (* basic.go:233-234 *)
  | LB0 (LBCAS k v) =>                                                (* basic.go:242-243 *)
      match m !! k with
      | Some v' => if v <=? v' then Some (m, inr (LBBool false)) else Some (m, inl (LBCas1 k v))
      | None => Some (m, inl (LBCas1 k v))
      end
  | LBCas1 k v => Some (<[k:=v]> m, inr (LBBool true))                (* basic.go:245-247 *)
  end.

(* --------------------------------------- reserved addresses, basic.go:1102-1170 *)
Notation addr := (list N) (only parsing).
Record registry := Reg {
  rg_reserved : gset (list N);    (* reservedAddressMap *)
  rg_system : gset (list N);      (* systemContractMap *)
  rg_nocheck : gset (list N);     (* noCheckAddressMap *)
  rg_nogas : gset (list N);       (* noGasContractMap *)
}.
Definition rg_empty : registry := Reg ∅ ∅ ∅ ∅.
Inductive rgop :=
| RegReserved (as_ : list addr) | RegSystem (noGas : bool) (as_ : list addr) | RegNoCheck (as_ : list addr)
| IsReserved (a : addr) | NoCheck (a : addr) | IsSystemContract (a : addr) | IsNoGas (a : addr).
Inductive rglocal :=
| RG0 (o : rgop)
| RGSys1 (noGas : bool) (a : addr) (as_ : list addr) | RGSys2 (noGas : bool) (a : addr) (as_ : list addr)
| RGNo1 (a : addr) (as_ : list addr).
(* Lock: basic.go:1111, 1120, 1133; RLock: basic.go:1143, 1150, 1157, 1164 *)
Definition rg_kind (o : rgop) : lkind :=
  match o with RegReserved _ | RegSystem _ _ | RegNoCheck _ => Excl | _ => Shared end.
Definition rg_next (ch : nat) (s : registry) (l : rglocal) : option (registry * (rglocal + option bool)) :=
  let '(Reg r y n g) := s in
  match l with
  | RG0 (RegReserved []) => Some (s, inr None)
  | RG0 (RegReserved (a :: as_)) => Some (Reg ({[a]} ∪ r) y n g, inl (RG0 (RegReserved as_)))   (* basic.go:1114 *)
  | RG0 (RegSystem ng []) => Some (s, inr None)
  | RG0 (RegSystem ng (a :: as_)) => Some (Reg r ({[a]} ∪ y) n g, inl (RGSys1 ng a as_))        (* basic.go:1123 *)
  | RGSys1 ng a as_ => Some (Reg ({[a]} ∪ r) y n g, inl (RGSys2 ng a as_))                      (* basic.go:1124 *)
  | RGSys2 ng a as_ => Some (Reg r y n (if ng then {[a]} ∪ g else g), inl (RG0 (RegSystem ng as_))) (* basic.go:1125-1127 *)
  | RG0 (RegNoCheck []) => Some (s, inr None)
  | RG0 (RegNoCheck (a :: as_)) => Some (Reg r y ({[a]} ∪ n) g, inl (RGNo1 a as_))              (* basic.go:1136 *)
  | RGNo1 a as_ => Some (Reg ({[a]} ∪ r) y n g, inl (RG0 (RegNoCheck as_)))                     (* basic.go:1137 *)
  | RG0 (IsReserved a) => Some (s, inr (Some (bool_decide (a ∈ r))))                            (* basic.go:1145 *)
  | RG0 (NoCheck a) => Some (s, inr (Some (bool_decide (a ∈ n))))                               (* basic.go:1152 *)
  | RG0 (IsSystemContract a) => Some (s, inr (Some (bool_decide (a ∈ y))))                      (* basic.go:1159 *)
  | RG0 (IsNoGas a) => Some (s, inr (Some (bool_decide (a ∈ g))))                               (* basic.go:1166 *)
  end.
