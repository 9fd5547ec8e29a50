(** Model of trie/iterator.go and of the functions of trie/trie.go and
    trie/utils.go that iterate (ValueIterator, ReversedValueIterator, IterateAll,
    Marshal, MarshalAsMap).

    The iterator works on a private clone of the trie (trie.go:935-941, 960-963),
    so it owns the tree. Go keeps pointers into the tree in a stack; here a stack
    frame holds the node itself, and when a frame is popped its node is written
    back into the parent's children (before that, the copy in the parent is
    stale and not read). The head of a stack is its top. Errors of expandNode
    and expandNodeValue are ignored or logged by the code: the node stays as it
    was. Every Next reads the database as it is at that time. *)
From Verif Require Import Base TrieSpec TrieModel.

Section model.
Context {V : Type} (E : env V).
Local Notation node := (node V).
Local Notation trie := (@trie V).

(* iterator.go:75-77, 88-90, 100-102, 359-361: expandNode, error ignored *)
Definition it_expand (st : store) (gen : N) (n : node) : node := default n (expandNode E st gen n).
(* trie.go:606-616 expandNodeValue, error ignored *)
Definition it_expandValue (st : store) (gen : N) (n : node) : node :=
  default n (if isCollapsed E n then expandNode E st gen n
             else if isValueCollapsed n then expandValue E st n else Some n).
(* iterator.go:254-266: the selector of the value iterator *)
Definition selector (st : store) (gen : N) (n : node) : node * bool :=
  let n1 := if isCollapsed E n then it_expand st gen n else n in
  let n2 := if isValueCollapsed n1 then it_expandValue st gen n1 else n1 in
  (n2, hasValue n2).

(* iterator.go:25-36 tracenode, traceStack. [current] is the root if the only
   frame has index 17, otherwise the child of the top frame at its index: this is
   what depthFirstNextStep last assigned to it whenever it returned a node *)
Record fiter := FIter { f_root : node; f_gen : N; f_stack : list (N * node); f_ended : bool }.
(* iterator.go:205-212, 247-251 *)
Definition NewValueIterator (t : trie) : fiter := FIter (t_root t) (t_gen t) [] false.

(* iterator.go:117-122, 168-169: the first present child at or after position [i] *)
Fixpoint first_from (ch : list (option node)) (j i : N) : option (N * node) :=
  match ch with
  | [] => None
  | o :: ch' => match (if i <=? j then o else None) with
                | Some c => Some (j, c)
                | None => first_from ch' (j + 1) i
                end
  end.

(* iterator.go:99-124 moveToNext: the frame and the child it points to now *)
Definition moveToNext (st : store) (gen : N) (f : N * node) : (N * node) * option node :=
  let '(index, n) := f in
  let n := it_expand st gen n in
  let '(index, i, n) :=
    if 16 <? index then (0, 0, n)
    else if index =? 16 then (index, 0, n)
    else (index, index + 1,
          match n_child n index with
          | Some c => if canCollapse E c then put_child n index (Some (collapse E c).2) else n
          | None => n
          end) in
  match first_from (n_ch n) 0 i with
  | Some (i, c) => ((i, n), Some c)
  | None => ((index, n), None)
  end.

(* iterator.go:180-201: move to the next sibling, popping exhausted frames.
   Result: the root if the traversal has ended, or the stack and the child *)
Fixpoint breadth (st : store) (gen : N) (f : N * node) (stack : list (N * node))
  : node + ((N * node) * list (N * node) * node) :=
  match moveToNext st gen f with
  | (f, Some c) => inr (f, stack, c)
  | ((_, n), None) =>
      match stack with
      | [] => inl n
      | (pi, pn) :: stack' => breadth st gen (pi, put_child pn pi (Some n)) stack'
      end
  end.

(* iterator.go:147-203 depthFirstNextStep from line 164 on, with the stack not
   empty; the flag says whether a node is returned; None = out of fuel *)
Fixpoint depth_next (fuel : nat) (st : store) (gen : N) (f : N * node) (stack : list (N * node))
  : option (node + list (N * node)) :=
  match fuel with
  | O => None
  | S fuel =>
      let '(index, n) := f in
      let '(n, cur) := if 16 <=? index then (n, None)
                       else let n := it_expand st gen n in (n, n_child n index) in
      match match cur with Some c => option_map (pair c) (first_from (n_ch c) 0 0) | None => None end with
      | Some (c, (i, cc)) =>
          let '(cc, sel) := selector st gen cc in
          let f' := (i, put_child c i (Some cc)) in
          if sel then Some (inr (f' :: (index, n) :: stack))
          else depth_next fuel st gen f' ((index, n) :: stack)
      | None =>
          match breadth st gen (index, n) stack with
          | inl root => Some (inl root)
          | inr ((i, n), stack, c) =>
              let '(c, sel) := selector st gen c in
              let f' := (i, put_child n i (Some c)) in
              if sel then Some (inr (f' :: stack)) else depth_next fuel st gen f' stack
          end
      end
  end.

(* iterator.go:214-225, 253-271 Next *)
Definition fnext (fuel : nat) (st : store) (it : fiter) : option (fiter * bool) :=
  let '(FIter root gen stack ended) := it in
  let finish root o := match o with
                  | None => None
                  | Some (inl root) => Some (FIter root gen [] true, false)
                  | Some (inr s) => Some (FIter root gen s false, true)
                  end in
  if ended then Some (it, false)
  else match stack with
       | [] => let '(root, sel) := selector st gen root in
               if sel then Some (FIter root gen [(17, root)] false, true)
               else finish root (depth_next fuel st gen (17, root) [])
       | f :: stack => finish root (depth_next fuel st gen f stack)
       end.

(* iterator.go:81-95, 133-145 currentPrefix, currentNodePrefix; the frames from
   the bottom up (their nodes are expanded, and stay so) *)
Fixpoint trace_prefix (l : list (N * node)) : list N :=
  match l with
  | [] => []
  | (i, n) :: l' => (if i <? 16 then n_pre n ++ [i] else []) ++ trace_prefix l'
  end.
(* iterator.go:273-290 Current: key (nil = []) and value; None = panic *)
Definition fcurrent (it : fiter) : option (list N * option V) :=
  match (if f_ended it then None
         else match f_stack it with
              | [] => None
              | (i, n) :: _ => if i <? 16 then n_child n i else Some n
              end) with
  | None => Some ([], None)
  | Some n =>
      let prefix := trace_prefix (rev (f_stack it)) ++ n_pre n in
      match prefix with
      | [] => Some ([], n_val n)
      | _ => if Nat.odd (length prefix) then None else Some (prefixToKeystring prefix, n_val n)
      end
  end.

(* ---------------------------------------------------------------- reversed *)

(* iterator.go:292-308; status 0: not started, 1: started, 2: ended *)
Record riter := RIter { r_root : node; r_gen : N; r_stack : list (node * Z); r_status : N }.
Definition newReversedValueIterator (t : trie) : riter := RIter (t_root t) (t_gen t) [] 0.

(* iterator.go:366-385: the last present child at or before position [i - 1] *)
Fixpoint last_below (ch : list (option node)) (i : nat) : option (N * node) :=
  match i with
  | O => None
  | S i' => match nth i' ch None with
            | Some c => Some (N.of_nat i', c)
            | None => last_below ch i'
            end
  end.

(* write a popped node back into its parent *)
Definition rpop (n : node) (stack : list (node * Z)) : list (node * Z) :=
  match stack with
  | [] => []
  | (pn, pi) :: stack' => (put_child pn (Z.to_N pi) (Some n), pi) :: stack'
  end.

(* iterator.go:348-387: the loop; stack and whether a value is returned *)
Fixpoint rloop (fuel : nat) (st : store) (gen : N) (stack : list (node * Z)) : option (list (node * Z) * bool) :=
  match fuel with
  | O => None
  | S fuel =>
      match stack with
      | [] => Some ([], false)
      | (n, index) :: stack' =>
          if (index <? 0)%Z then rloop fuel st gen (rpop (collapse E n).2 stack')
          else
            let n := if isCollapsed E n then it_expand st gen n else n in
            let n := if isValueCollapsed n then it_expandValue st gen n else n in
            if (index =? 0)%Z then rloop fuel st gen ((n, (-1)%Z) :: stack')
            else match last_below (n_ch n) (Z.to_nat index) with
                 | Some (i, c) => rloop fuel st gen ((c, 16%Z) :: (n, Z.of_N i) :: stack')
                 | None => if hasValue n then Some ((n, (-1)%Z) :: stack', true)
                           else rloop fuel st gen (rpop (collapse E n).2 stack')
                 end
      end
  end.

(* iterator.go:333-388 Next; the root of a trie is never nil *)
Definition rnext (fuel : nat) (st : store) (it : riter) : option (riter * bool) :=
  let '(RIter root gen stack status) := it in
  if 1 <? status then Some (it, false)
  else match rloop fuel st gen (if status =? 0 then [(root, 16%Z)] else stack) with
       | None => None
       | Some (s, true) => Some (RIter root gen s 1, true)
       | Some (s, false) => Some (RIter root gen s 2, false)
       end.

(* iterator.go:321-329: frames from the bottom up *)
Fixpoint rtrace_prefix (l : list (node * Z)) : list N :=
  match l with
  | [] => []
  | [(n, _)] => n_pre n
  | (n, i) :: l' => n_pre n ++ (if (0 <=? i)%Z && (i <? 16)%Z then [Z.to_N i] else []) ++ rtrace_prefix l'
  end.
(* iterator.go:310-331 Current *)
Definition rcurrent (it : riter) : option (list N * option V) :=
  if negb (r_status it =? 1) then Some ([], None)
  else match r_stack it with
       | [] => Some ([], None)
       | (n, _) :: _ => Some (prefixToKeystring (rtrace_prefix (rev (r_stack it))), n_val n)
       end.

(* ------------------------------------------------------------------- users *)

(* for it.Next() { k, v := it.Current(); if !body(k, v) { break } } : the list of
   the (k, v) that reach the body. Call number [i] of Next reads the database
   [sts i]; [fuel] bounds the number of calls and each search; None = out of
   fuel or panic *)
Fixpoint drive {I} (next : nat -> store -> I -> option (I * bool)) (current : I -> option (list N * option V))
  (body : list N * option V -> bool) (fuel : nat) (calls : nat) (sts : nat -> store) (i : nat) (it : I)
  : option (list (list N * option V)) :=
  match calls with
  | O => None
  | S calls =>
      match next fuel (sts i) it with
      | None => None
      | Some (_, false) => Some []
      | Some (it', true) =>
          match current it' with
          | None => None
          | Some kv => if body kv
                       then match drive next current body fuel calls sts (S i) it' with
                            | Some l => Some (kv :: l)
                            | None => None
                            end
                       else Some [kv]
          end
      end
  end.

(* trie.go:943-958 IterateAll(noNil, callback): the calls of callback *)
Definition nil_kv (kv : list N * option V) : bool :=
  match kv with ([], _) | (_, None) => true | _ => false end.
Definition IterateAll (fuel : nat) (sts : nat -> store) (t : trie) (noNil : bool)
  (callback : list N * option V -> bool) : option (list (list N * option V)) :=
  match drive fnext fcurrent (fun kv => (noNil && nil_kv kv) || callback kv) fuel fuel sts 0 (NewValueIterator t) with
  | Some l => Some (if noNil then List.filter (fun kv => negb (nil_kv kv)) l else l)
  | None => None
  end.

(* utils.go:153-164 Marshal: the bytes written; [enc] = rtl.Encode of a value *)
Definition Marshal (fuel : nat) (sts : nat -> store) (t : trie) (enc : V -> list N) : option (list N) :=
  match drive fnext fcurrent (fun _ => true) fuel fuel sts 0 (NewValueIterator t) with
  | Some l => Some (concat (map (fun kv => match kv.2 with Some v => enc v | None => [] end) l))
  | None => None
  end.
(* utils.go:166-180 MarshalAsMap; a nil value is encoded as [encnil] *)
Definition MarshalAsMap (fuel : nat) (sts : nat -> store) (t : trie) (enc : V -> list N) (encnil : list N) : option (list N) :=
  match drive fnext fcurrent (fun _ => true) fuel fuel sts 0 (NewValueIterator t) with
  | Some l => Some (concat (map (fun kv => match kv.1 with
                                            | [] => []
                                            | k => ertl E k ++ match kv.2 with Some v => enc v | None => encnil end
                                            end) l))
  | None => None
  end.

End model.

(* ---------------------------------------------------------------- BatchPutter *)

Section batch.
Context {V : Type} (E : env V).
Local Notation trie := (@trie V).

(* utils.go:191-199 *)
Record batchputter := BatchPutter { bp_t : trie; bp_m : Z; bp_count : Z }.
Definition NewBatchPutter (t : trie) (m : Z) : batchputter := BatchPutter t m 0.
(* utils.go:201-217 Put: database, putter, (changed, no error); None = panic
   (of Trie.Put, or the division by zero of count%m). Counts are unbounded
   integers here. Collapse returns no error in the model *)
Definition BatchPut (st : store) (p : batchputter) (k : list N) (v : V) : option (store * batchputter * (bool * bool)) :=
  match Put E st (bp_t p) k (Some v) with
  | None => None
  | Some (t, true) =>
      let count := (bp_count p + 1)%Z in
      if (bp_m p =? 0)%Z then None
      else if (Z.rem count (bp_m p) =? 0)%Z then
        let '(st', t1, ok) := Commit E st t in
        if ok then Some (st', BatchPutter (Collapse E t1) (bp_m p) count, (true, true))
        else Some (st', BatchPutter t1 (bp_m p) count, (true, false))
      else Some (st, BatchPutter t (bp_m p) count, (true, true))
  | Some (t, false) => Some (st, BatchPutter t (bp_m p) (bp_count p), (false, true))
  end.
Fixpoint BatchPutAll (st : store) (p : batchputter) (kvs : list (list N * V)) : option (store * batchputter * list (bool * bool)) :=
  match kvs with
  | [] => Some (st, p, [])
  | (k, v) :: kvs => match BatchPut st p k v with
                     | None => None
                     | Some (st, p, o) => match BatchPutAll st p kvs with
                                          | None => None
                                          | Some (st, p, os) => Some (st, p, o :: os) end
                     end
  end.
End batch.
