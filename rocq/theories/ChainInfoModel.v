(** Model of the node lists and attributes of ChainInfos (chaininfo.go:235-305, 734-1010).

    Node ids and strings are byte strings. sort.Sort of node ids and of attributes is
    [sort_strings]: their order is total, so the sorted list is unique. sort.Slice of boot
    nodes is a parameter, as its order does not tell all entries apart. Copies of slices
    share nothing with their source in this model; the code replaces the slices. *)
From Coq Require Import NArith ZArith Lia Zify Decimal.
From stdpp Require Import gmap sorting.
From Verif Require Import Base HexModel BasicModel CombinedSpec CombinedModel.
Open Scope N_scope.

(** drop the element at position i: the two copies of chaininfo.go:778-780 and 813-815 *)
Definition cut {A} (i : nat) (l : list A) : list A := take i l ++ drop (S i) l.

(* ------------------------------------------------------------- data nodes *)
(* chaininfo.go:788-803; the list, and the answer *)
Definition AddDataNode (l : list (list N)) (node : list N) : list (list N) * bool :=
  match l with
  | [] => ([node], true)
  | _ => let k := search_strings l node in
         if bool_decide (l !! k = Some node) then (l, false)
         else (sort_strings (l ++ [node]), true)
  end.
(* chaininfo.go:805-821 *)
Definition RemoveDataNode (l : list (list N)) (node : list N) : list (list N) * bool :=
  match l with
  | [] => (l, true)
  | _ => let k := search_strings l node in
         if bool_decide (l !! k = Some node) then (cut k l, true) else (l, false)
  end.
(* chaininfo.go:894-905 *)
Definition HasDataNode (l : list (list N)) (node : list N) : bool :=
  match l with
  | [] => false
  | _ => bool_decide (l !! search_strings l node = Some node)
  end.
(* chaininfo.go:734-744 *)
Fixpoint index_loop (i : Z) (l : list (list N)) (node : list N) : Z :=
  match l with
  | [] => (-1)%Z
  | x :: r => if bool_decide (node = x) then i else index_loop (i + 1) r node
  end.
Definition Index (l : list (list N)) (node : list N) : Z := index_loop 0 l node.

Inductive dnop := DNAdd (x : list N) | DNRemove (x : list N) | DNHas (x : list N) | DNIndex (x : list N) | DNList | DNSort.
Inductive dnres := DNBool (b : bool) | DNPos (i : Z) | DNIds (l : list (list N)) | DNUnit.
Definition dn_step (l : list (list N)) (o : dnop) : list (list N) * dnres :=
  match o with
  | DNAdd x => let '(l', b) := AddDataNode l x in (l', DNBool b)
  | DNRemove x => let '(l', b) := RemoveDataNode l x in (l', DNBool b)
  | DNHas x => (l, DNBool (HasDataNode l x))
  | DNIndex x => (l, DNPos (Index l x))
  | DNList => (l, DNIds l)                     (* chaininfo.go:823-825 *)
  | DNSort => (sort_strings l, DNUnit)         (* chaininfo.go:874-876; one element is sorted *)
  end.
Fixpoint dn_run (l : list (list N)) (os : list dnop) : list (list N) * list dnres :=
  match os with
  | [] => (l, [])
  | o :: r => let '(l1, x) := dn_step l o in let '(l2, xs) := dn_run l1 r in (l2, x :: xs)
  end.

(* ------------------------------------------------------------- boot nodes *)
(* chaininfo.go:942-952; ports are uint16 *)
Record server := Server {
  sv_chain : N; sv_id : list N; sv_ip : list N; sv_basic : N; sv_con0 : N; sv_con1 : N;
  sv_data0 : N; sv_data1 : N; sv_rpc : N }.
Global Instance server_eq_dec : EqDecision server. Proof. solve_decision. Defined.

Section boot.
  (** sort.Slice by NodeIDString (chaininfo.go:758-760) *)
  Context (srt : list server -> list server).
  (* chaininfo.go:746-763 *)
  Definition AddBootNode (l : list server) (s : server) : list server * bool :=
    match l with
    | [] => ([s], true)
    | _ => let ids := map sv_id l in
           let i := search_strings ids (sv_id s) in
           if bool_decide (ids !! i = Some (sv_id s)) then (l, false) else (srt (l ++ [s]), true)
    end.
  (** hex.DecodeString without its error: what was decoded before it *)
  Definition decoded (s : server) : list N := (hex_decode (sv_id s)).1.
  (* chaininfo.go:765-786 *)
  Definition RemoveBootNode (l : list server) (node : list N) : list server * bool :=
    match l with
    | [] => (l, true)
    | _ => let ids := map decoded l in
           let i := search_strings ids node in
           if bool_decide (ids !! i = Some node) then (cut i l, true) else (l, false)
    end.

  Inductive bnop := BNAdd (s : server) | BNRemove (x : list N) | BNList.
  Inductive bnres := BNBool (b : bool) | BNServers (l : list server).
  Definition bn_step (l : list server) (o : bnop) : list server * bnres :=
    match o with
    | BNAdd s => let '(l', b) := AddBootNode l s in (l', BNBool b)
    | BNRemove x => let '(l', b) := RemoveBootNode l x in (l', BNBool b)
    | BNList => (l, BNServers l)
    end.
  Fixpoint bn_run (l : list server) (os : list bnop) : list server * list bnres :=
    match os with
    | [] => (l, [])
    | o :: r => let '(l1, x) := bn_step l o in let '(l2, xs) := bn_run l1 r in (l2, x :: xs)
    end.
End boot.

(** bytes.Compare *)
Definition str_compare (a b : list N) : Z :=
  if bool_decide (a = b) then 0%Z else if str_leb a b then (-1)%Z else 1%Z.
(* chaininfo.go:994-1006 *)
Definition Compare (d o : server) : Z :=
  if bool_decide (d = o) then 0%Z
  else if sv_chain d =? sv_chain o then str_compare (sv_id d) (sv_id o)
  else if sv_chain d <? sv_chain o then (-1)%Z else 1%Z.

(* strconv.Itoa of a number that is not negative *)
Fixpoint digits_of (d : Decimal.uint) : list N :=
  match d with
  | Nil => [] | D0 d => 48 :: digits_of d | D1 d => 49 :: digits_of d | D2 d => 50 :: digits_of d
  | D3 d => 51 :: digits_of d | D4 d => 52 :: digits_of d | D5 d => 53 :: digits_of d
  | D6 d => 54 :: digits_of d | D7 d => 55 :: digits_of d | D8 d => 56 :: digits_of d
  | D9 d => 57 :: digits_of d
  end.
Definition itoa (n : N) : list N := digits_of (N.to_uint n).
(* chaininfo.go:979-992: what HashValue (966-973) hashes *)
Definition hashSerialize (d : server) : list N :=
  itoa (sv_chain d) ++ sv_id d ++ sv_ip d ++ itoa (sv_basic d) ++ itoa (sv_con0 d) ++ itoa (sv_con1 d)
    ++ itoa (sv_data0 d) ++ itoa (sv_data1 d) ++ itoa (sv_rpc d).

(* --------------------------------------------------------------- auditors *)
(* chaininfo.go:827-842 GetAuditorMap, 844-854 GetAuditorIds; [iter] is the order in which
   the map is ranged over *)
Definition GetAuditorIds (iter : gset (list N) -> list (list N)) (genesis datas auditors : list (list N)) : list (list N) :=
  let add := foldl (fun m x => {[x]} ∪ m) in
  let nids := iter (add (add (add ∅ genesis) datas) auditors) in
  if (1 <? length nids)%nat then sort_strings nids else nids.

(* ------------------------------------------------------------- attributes *)
(* chaininfo.go:235-251: "POC", "REWARD", "NOGAS" *)
Definition validAttrs : list (list N) :=
  [[80; 79; 67]; [82; 69; 87; 65; 82; 68]; [78; 79; 71; 65; 83]].
Definition Attr_IsValid (a : list N) : bool := bool_decide (a ∈ validAttrs).
(* chaininfo.go:274-281 *)
Definition Attrs_Contains (l : list (list N)) (a : list N) : bool := bool_decide (a ∈ l).
(* chaininfo.go:284-305 on a non-nil receiver; false is the error *)
Fixpoint attrs_loop (l : list (list N)) (attrs : list (list N)) : list (list N) :=
  match attrs with
  | [] => l
  | a :: r =>
      match l with
      | [] => attrs_loop [a] r
      | _ => attrs_loop (sort_strings (if Attrs_Contains l a then l else l ++ [a])) r
      end
  end.
Definition Attrs_Add (l : list (list N)) (attrs : list (list N)) : list (list N) * bool :=
  if forallb Attr_IsValid attrs then (attrs_loop l attrs, true) else (l, false).
