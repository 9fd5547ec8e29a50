(** Model of abi/abi.go (building an ABI from its JSON entries, call data, lookups),
    abi/method.go NewMethod, abi/event.go NewEvent and abi/error.go. Decoding the JSON text
    itself is encoding/json's; the entries are what it yields. Maps are finite maps; the
    loops over a map take the list of its values in some order. *)
From Coq Require Import NArith ZArith Lia Zify.
From stdpp Require Import list gmap.
From Verif Require Import Base AbiModel AbiSelModel AbiTypeModel.
Global Open Scope N_scope.

(* abi/argument.go:29-33 *)
Record argument := Argument { a_name : list N; a_typ : typ; a_indexed : bool }.
(* abi/argument.go:35; None is a nil slice *)
Definition arguments := option (list argument).
Definition items (o : arguments) : list argument := default [] o.

(* abi/method.go:28-43 *)
Inductive ftype := FConstructor | FFallback | FReceive | FFunction.
(* abi/method.go:53-86 without str, the text for printing *)
Record method := Method {
  m_name : list N; m_raw : list N; m_type : ftype; m_mut : list N; m_const : bool; m_payable : bool;
  m_in : arguments; m_out : arguments; m_sig : list N; m_id : list N }.
(* abi/event.go:30-54 without str *)
Record event := Event {
  ev_name : list N; ev_raw : list N; ev_anon : bool; ev_in : arguments; ev_sig : list N; ev_id : list N }.
(* abi/error.go:27-40 without str *)
Record cerror := CError { er_name : list N; er_in : arguments; er_sig : list N; er_id : list N }.
(* abi/abi.go:33-45 *)
Record abi := Abi {
  ab_constructor : method; ab_methods : gmap (list N) method; ab_events : gmap (list N) event;
  ab_errors : gmap (list N) cerror; ab_fallback : method; ab_receive : method }.

(** The zero values of Method and ABI. *)
Definition zero_method : method := Method [] [] FConstructor [] false false None None [] [].
Definition zero_abi : abi := Abi zero_method ∅ ∅ ∅ zero_method zero_method.

(* abi/abi.go:151-168: one element of the JSON array; abi/argument.go:37-44 *)
Record entry := Entry {
  e_type : list N; e_name : list N; e_inputs : option (list (amarsh * bool)); e_outputs : option (list (amarsh * bool));
  e_mut : list N; e_const : bool; e_payable : bool; e_anon : bool }.
(** The element once its arguments are decoded. *)
Record field := Field {
  f_type : list N; f_name : list N; f_in : arguments; f_out : arguments;
  f_mut : list N; f_const : bool; f_payable : bool; f_anon : bool }.

Definition k_constructor : list N := [99; 111; 110; 115; 116; 114; 117; 99; 116; 111; 114].
Definition k_function : list N := [102; 117; 110; 99; 116; 105; 111; 110].
Definition k_fallback : list N := [102; 97; 108; 108; 98; 97; 99; 107].
Definition k_receive : list N := [114; 101; 99; 101; 105; 118; 101].
Definition k_event : list N := [101; 118; 101; 110; 116].
Definition k_error : list N := [101; 114; 114; 111; 114].
Definition k_payable : list N := [112; 97; 121; 97; 98; 108; 101].
Definition k_arg : list N := [97; 114; 103].

(** fmt.Sprintf("%v(%v)", name, strings.Join(types, ",")) *)
Definition sig_text (name : list N) (args : list argument) : list N :=
  signature name (map (fun a => (a_name a, a_typ a)) args).

(** fmt.Sprintf("arg%d", i) for arguments without a name: abi/event.go:64-75, error.go:47-58 *)
Fixpoint sanitize (i : nat) (l : list argument) : list argument :=
  match l with
  | [] => []
  | a :: r => (if bool_decide (a_name a = []) then Argument (k_arg ++ decimal i) (a_typ a) (a_indexed a) else a) :: sanitize (S i) r
  end.

Section abi.
  Context (uvalid : list N -> bool) (reflectable : aty -> bool).
  (** common.SystemHash256, 32 bytes *)
  Context (H : list N -> list N).

  (* abi/argument.go:47-62, for a whole array *)
  Fixpoint decode_list (l : list (amarsh * bool)) : res (list argument) :=
    match l with
    | [] => Ok []
    | (AM n t i cs, ix) :: r =>
        rbind (NewType uvalid reflectable t i cs) (fun ty =>
          rbind (decode_list r) (fun rest => Ok (Argument n ty ix :: rest)))
    end.
  Definition decode_args (o : option (list (amarsh * bool))) : res arguments :=
    match o with None => Ok None | Some l => rbind (decode_list l) (fun r => Ok (Some r)) end.
  Definition decode_entry (e : entry) : res field :=
    rbind (decode_args (e_inputs e)) (fun ins =>
      rbind (decode_args (e_outputs e)) (fun outs =>
        Ok (Field (e_type e) (e_name e) ins outs (e_mut e) (e_const e) (e_payable e) (e_anon e)))).
  Fixpoint decode_entries (l : list entry) : res (list field) :=
    match l with
    | [] => Ok []
    | e :: r => rbind (decode_entry e) (fun f => rbind (decode_entries r) (fun fs => Ok (f :: fs)))
    end.

  (* abi/method.go:94-152 *)
  Definition NewMethod (name raw : list N) (ty : ftype) (mut : list N) (isConst isPayable : bool) (ins outs : arguments) : method :=
    let sig := match ty with FFunction => sig_text raw (items ins) | _ => [] end in
    let id := match ty with FFunction => take 4 (H sig) | _ => [] end in
    Method name raw ty mut isConst isPayable ins outs sig id.
  (* abi/event.go:61-98 *)
  Definition NewEvent (name raw : list N) (anon : bool) (ins : arguments) : event :=
    let sig := sig_text raw (items ins) in
    Event name raw anon (option_map (sanitize 0) ins) sig (H sig).
  (* abi/error.go:43-78 *)
  Definition NewError (name : list N) (ins : arguments) : cerror :=
    let sig := sig_text name (items ins) in
    CError name (option_map (sanitize 0) ins) sig (H sig).

  (* abi/abi.go:241-248 *)
  Definition HasFallback (a : abi) : bool := match m_type (ab_fallback a) with FFallback => true | _ => false end.
  Definition HasReceive (a : abi) : bool := match m_type (ab_receive a) with FReceive => true | _ => false end.

  (* abi/abi.go:176-212: the body of the loop; None is an error. The fuel of
     ResolveNameConflict is the number of names in use, which C45 shows to be enough. *)
  Definition add_field (a : abi) (f : field) : option abi :=
    let '(Abi c ms es er fb rc) := a in
    if bool_decide (f_type f = k_constructor) then
      Some (Abi (NewMethod [] [] FConstructor (f_mut f) (f_const f) (f_payable f) (f_in f) None) ms es er fb rc)
    else if bool_decide (f_type f = k_function) then
      match ResolveNameConflict (size ms) (f_name f) (fun s => bool_decide (is_Some (ms !! s))) with
      | None => None
      | Some name => Some (Abi c (<[name := NewMethod name (f_name f) FFunction (f_mut f) (f_const f) (f_payable f) (f_in f) (f_out f)]> ms) es er fb rc)
      end
    else if bool_decide (f_type f = k_fallback) then
      if HasFallback a then None
      else Some (Abi c ms es er (NewMethod [] [] FFallback (f_mut f) (f_const f) (f_payable f) None None) rc)
    else if bool_decide (f_type f = k_receive) then
      if HasReceive a then None
      else if negb (bool_decide (f_mut f = k_payable)) then None
      else Some (Abi c ms es er fb (NewMethod [] [] FReceive (f_mut f) (f_const f) (f_payable f) None None))
    else if bool_decide (f_type f = k_event) then
      match ResolveNameConflict (size es) (f_name f) (fun s => bool_decide (is_Some (es !! s))) with
      | None => None
      | Some name => Some (Abi c ms (<[name := NewEvent name (f_name f) (f_anon f) (f_in f)]> es) er fb rc)
      end
    else if bool_decide (f_type f = k_error) then
      Some (Abi c ms es (<[f_name f := NewError (f_name f) (f_in f)]> er) fb rc)
    else None.
  Fixpoint add_fields (a : abi) (fs : list field) : option abi :=
    match fs with
    | [] => Some a
    | f :: r => match add_field a f with Some a' => add_fields a' r | None => None end
    end.
  (* abi/abi.go:152-214, on an ABI that may hold something already; what an ABI is left with
     after an error is not kept *)
  Definition UnmarshalJSON (a : abi) (l : list entry) : res abi :=
    rbind (decode_entries l) (fun fs =>
      match add_fields (Abi (ab_constructor a) ∅ ∅ ∅ (ab_fallback a) (ab_receive a)) fs with
      | Some a' => Ok a'
      | None => Err
      end).
  (* abi/abi.go:47-55 *)
  Definition JSON (l : list entry) : res abi := UnmarshalJSON zero_abi l.

  (** The types Pack and Unpack work with. A Type that NewType did not make can lack its
      element type: using it dereferences nil. *)
  Fixpoint types_of (l : list argument) : res (list aty) :=
    match l with
    | [] => Ok []
    | a :: r => match erase (a_typ a) with
                | None => Panic
                | Some t => rbind (types_of r) (fun ts => Ok (t :: ts))
                end
    end.
  (* abi/argument.go:64-72; nil when there are none *)
  Definition NonIndexed (o : arguments) : arguments :=
    match List.filter (fun a => negb (a_indexed a)) (items o) with [] => None | l => Some l end.

  (* abi/argument.go:233-273 and 80-88 for Arguments *)
  Definition args_pack (wb : nat) (o : arguments) (vs : list val) : res (list N) :=
    rbind (types_of (items o)) (fun ts => AbiModel.Pack wb ts vs).
  Definition args_unpack (o : arguments) (data : list N) : res (list val) :=
    rbind (types_of (items (NonIndexed o))) (fun ts => AbiModel.Unpack ts data).
  (* abi/argument.go:91-110; the map may be nil *)
  Fixpoint put_values (v : gmap (list N) val) (l : list argument) (vs : list val) : gmap (list N) val :=
    match l, vs with
    | a :: l', x :: vs' => put_values (<[a_name a := x]> v) l' vs'
    | _, _ => v
    end.
  Definition UnpackIntoMap (o : arguments) (v : option (gmap (list N) val)) (data : list N) : res (gmap (list N) val) :=
    match v with
    | None => Err
    | Some v =>
        match data with
        | [] => match items (NonIndexed o) with [] => Ok v | _ => Err end
        | _ => rbind (rbind (types_of (items (NonIndexed o))) (fun ts => UnpackValues ts data)) (fun vs =>
                 Ok (put_values v (items (NonIndexed o)) vs))
        end
    end.

  (** append(s, x...): the bytes, and whether the array of s, of capacity cap, still holds
      them. The capacity of a hash is that of its array, 32. *)
  Definition go_append (cap : nat) (s x : list N) : list N * bool := (s ++ x, (length s + length x <=? cap)%nat).

  (* abi/abi.go:62-82; the bytes, and whether they are stored in the method's ID *)
  Definition Pack (wb : nat) (a : abi) (name : list N) (vs : list val) : res (list N * bool) :=
    match name with
    | [] => rbind (args_pack wb (m_in (ab_constructor a)) vs) (fun b => Ok (b, false))
    | _ => match ab_methods a !! name with
           | None => Err
           | Some m => rbind (args_pack wb (m_in m) vs) (fun b => Ok (go_append 32 (m_id m) b))
           end
    end.
  (* abi/abi.go:84-97 *)
  Definition PackEventArgs (wb : nat) (a : abi) (name : list N) (vs : list val) : res (list N) :=
    match ab_events a !! name with
    | None => Err
    | Some e => match ev_in e with
                | None => Err
                | _ => match NonIndexed (ev_in e) with None => Err | n => args_pack wb n vs end
                end
    end.
  (* abi/abi.go:99-116 *)
  Definition getArguments (a : abi) (name data : list N) : res arguments :=
    let found := match ab_methods a !! name with
                 | Some m => if negb (length data mod 32 =? 0)%nat then Err else Ok (m_out m)
                 | None => Ok None
                 end in
    rbind found (fun args =>
      let args := match ab_events a !! name with Some e => ev_in e | None => args end in
      match args with None => Err | _ => Ok args end).
  (* abi/abi.go:119-125 *)
  Definition Unpack (a : abi) (name data : list N) : res (list val) :=
    rbind (getArguments a name data) (fun args => args_unpack args data).
  (* abi/abi.go:143-149 *)
  Definition UnpackIntoMap_named (a : abi) (v : option (gmap (list N) val)) (name data : list N) : res (gmap (list N) val) :=
    rbind (getArguments a name data) (fun args => UnpackIntoMap args v data).
  (* abi/abi.go:217-227; ms: the methods in the order the map is ranged over *)
  Definition MethodById (ms : list method) (sigdata : list N) : res method :=
    if (length sigdata <? 4)%nat then Err
    else match List.find (fun m => bool_decide (m_id m = take 4 sigdata)) ms with Some m => Ok m | None => Err end.
  (* abi/abi.go:231-238 *)
  Definition EventByID (es : list event) (topic : list N) : res event :=
    match List.find (fun e => bool_decide (ev_id e = topic)) es with Some e => Ok e | None => Err end.

  (* abi/abi.go:251: Error(string) *)
  Definition revert_sig : list N := [69; 114; 114; 111; 114; 40; 115; 116; 114; 105; 110; 103; 41].
  Definition revertSelector : list N := take 4 (H revert_sig).
  (* abi/abi.go:257-270 *)
  Definition UnpackRevert (data : list N) : res (list N) :=
    if (length data <? 4)%nat then Err
    else if negb (bool_decide (take 4 data = revertSelector)) then Err
    else rbind (AbiModel.Unpack [TString] (drop 4 data)) (fun vs =>
           match vs with VString s :: _ => Ok s | _ => Panic end).
  (* abi/error.go:84-92 *)
  Definition Error_Unpack (e : cerror) (data : list N) : res (list val) :=
    if (length data <? 4)%nat then Err
    else if negb (bool_decide (take 4 data = take 4 (er_id e))) then Err
    else args_unpack (er_in e) (drop 4 data).

  (* abi/abi.go:272-281; the result may be nil without an error, here empty *)
  Definition PackInputWithoutID (wb : nat) (a : abi) (name : list N) (vs : list val) : res (list N) :=
    match name with
    | [] => Ok []
    | _ => match ab_methods a !! name with None => Err | Some m => args_pack wb (m_in m) vs end
    end.
  (* abi/abi.go:283-297 *)
  Definition InputUnpack (a : abi) (v : option (gmap (list N) val)) (name data : list N) : res (gmap (list N) val) :=
    match data with
    | [] => Err
    | _ => if negb (length data mod 32 =? 0)%nat then Err
           else match ab_methods a !! name with Some m => UnpackIntoMap (m_in m) v data | None => Err end
    end.
  (* abi/abi.go:306-321 *)
  Definition PackReturns (wb : nat) (a : abi) (name : list N) (vs : list val) : res (list N) :=
    match name with
    | [] => Ok []
    | _ => match ab_methods a !! name with None => Err | Some m => args_pack wb (m_out m) vs end
    end.
  (* abi/abi.go:323-336 *)
  Definition UnpackReturnsMap (a : abi) (v : option (gmap (list N) val)) (name data : list N) : res (gmap (list N) val) :=
    match data with
    | [] => Err
    | _ => if negb (length data mod 32 =? 0)%nat then Err
           else match ab_methods a !! name with Some m => UnpackIntoMap (m_out m) v data | None => Err end
    end.

  (** The caller of Pack stores a byte into the slice it got: when that is stored in the
      method's ID, the ABI changes. *)
  Definition store (a : abi) (name : list N) (r : list N * bool) (i : nat) (x : N) : abi * list N :=
    let bytes' := <[i := x]> r.1 in
    if r.2 then
      match ab_methods a !! name with
      | Some m => let '(Abi c ms es er fb rc) := a in
          (Abi c (<[name := Method (m_name m) (m_raw m) (m_type m) (m_mut m) (m_const m) (m_payable m) (m_in m) (m_out m) (m_sig m)
                     (<[i := x]> (m_id m))]> ms) es er fb rc, bytes')
      | None => (a, bytes')
      end
    else (a, bytes').
End abi.
