(** Administrators and copies of the description of a chain (chaininfo.go).

    For Clone the memory is modelled: arrays by number, a slice is nil or an array with an
    offset and a length. An element is a value without references (NodeID is an array of
    bytes; Dataserver, chaininfo.go:942-952, has numbers and strings only; ChainAttr is a
    number) or, in AdminPubs, again a slice. The fields without references are one value.
    A copy of an empty slice that is not nil takes an array, as make does. *)
From Verif Require Import Base FixedModel.
From stdpp Require Import gmap.
Global Open Scope N_scope.

(* chaininfo.go:699-713 AddrIsAdmin; None = nil receiver. H = Hash256s *)
Fixpoint addr_loop (H : list N -> list N) (admins : list (list N)) (addr : list N) : bool :=
  match admins with
  | [] => false
  | p :: r => match AddressFromPubSlice H p with
              | None => addr_loop H r addr
              | Some a => if bool_decide (a = addr) then true else addr_loop H r addr
              end
  end.
Definition AddrIsAdmin (H : list N -> list N) (c : option (list (list N))) (addr : list N) : bool :=
  match c with None => false | Some admins => addr_loop H admins addr end.
(* chaininfo.go:715-728 PubIsAdmin *)
Fixpoint pub_loop (admins : list (list N)) (pub : list N) : bool :=
  match admins with
  | [] => false
  | p :: r => if (length p =? 0)%nat then pub_loop r pub
              else if bool_decide (p = pub) then true else pub_loop r pub
  end.
Definition PubIsAdmin (c : option (list (list N))) (pub : list N) : bool :=
  match c with None => false | Some admins => pub_loop admins pub end.

(* ------------------------------------------------------------------- memory *)
Definition slice : Type := option (nat * nat * nat).      (* array, offset, length *)
Inductive cell := CVal (d : list N) | CRef (s : slice).
Notation heap := (gmap nat (list cell)).
Definition elems (h : heap) (s : slice) : list cell :=
  match s with None => [] | Some (a, o, n) => take n (drop o (default [] (h !! a))) end.
(* make and copy *)
Definition make_copy (h : heap) (l : list cell) : heap * slice :=
  let a := fresh (dom h) in (<[a := l]> h, Some (a, 0%nat, length l)).

(* basic.go:518-525 NodeIDs.Clone, chaininfo.go:253-260 ChainAttrs.Clone, bytes.go:147-157
   CopyBytes, and the loop over BootNodes, chaininfo.go:642-648 *)
Definition ClonePlain (h : heap) (s : slice) : heap * slice :=
  match s with None => (h, None) | Some _ => make_copy h (elems h s) end.
(* bytes.go:299-308 CopyBytesSlice. Simplification: the outer array is made last *)
Fixpoint copy_cells (h : heap) (l : list cell) : heap * list cell :=
  match l with
  | [] => (h, [])
  | CVal d :: r => let '(h1, r') := copy_cells h r in (h1, CVal d :: r')
  | CRef s :: r => let '(h1, s') := ClonePlain h s in
                   let '(h2, r') := copy_cells h1 r in (h2, CRef s' :: r')
  end.
Definition CopyBytesSlice (h : heap) (s : slice) : heap * slice :=
  match s with
  | None => (h, None)
  | Some _ => let '(h1, l) := copy_cells h (elems h s) in make_copy h1 l
  end.

(* chaininfo.go:184-200 *)
Record infos := Infos {
  ci_fixed : list N;        (* ChainStruct, SecondCoin*, HaveSecondCoin, Election, ChainVersion, Syncblock, Version *)
  ci_admins : slice;        (* AdminPubs *)
  ci_comm : slice;          (* GenesisCommIds *)
  ci_boot : slice;          (* BootNodes *)
  ci_gdatas : slice;        (* GenesisDatas *)
  ci_datas : slice;         (* Datas *)
  ci_attrs : slice;         (* Attributes *)
  ci_auditors : slice;      (* Auditors *)
}.
(* chaininfo.go:638-667 Clone; None = nil *)
Definition Clone (h : heap) (c : option infos) : heap * option infos :=
  match c with
  | None => (h, None)
  | Some c =>
      let '(h, boot) := ClonePlain h (ci_boot c) in
      let '(h, admins) := CopyBytesSlice h (ci_admins c) in
      let '(h, comm) := ClonePlain h (ci_comm c) in
      let '(h, gdatas) := ClonePlain h (ci_gdatas c) in
      let '(h, datas) := ClonePlain h (ci_datas c) in
      let '(h, attrs) := ClonePlain h (ci_attrs c) in
      let '(h, auditors) := ClonePlain h (ci_auditors c) in
      (h, Some (Infos (ci_fixed c) admins comm boot gdatas datas attrs auditors))
  end.
