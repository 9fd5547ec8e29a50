(** Model of event topics and event decoding: abi/topics.go, abi/thinkium.go
    UnpackEvent/CopyEvent and abi/abi.go EventString. [Hash256] is a parameter. *)
From Verif Require Export AbiModel.
Global Open Scope N_scope.

Section Topics.
Context (Hash256 : list N -> list N).

(** A filter rule of MakeTopics: common.Address is told apart from other byte
    arrays by its Go type. *)
Inductive rule := RAddress (s : list N) | RVal (v : val).

(** copy(topic[p:], src) on a 32-byte topic; panics when p is negative. *)
Definition topic_put (p : Z) (src topic : list N) : res (list N) :=
  if (p <? 0)%Z then Panic else Ok (buf_put (Z.to_nat p) src topic).
Definition zero_topic : list N := replicate 32 0.

(* abi/topics.go:100-111; >> on int64 is arithmetic *)
Fixpoint gen_loop (r : Z) (size : nat) (topic : list N) : list N :=
  match size with
  | O => topic
  | S i => <[(31 - i)%nat := Z.to_N (Z.shiftr r (8 * Z.of_nat i) mod 256)]> (gen_loop r i topic)
  end.
Definition genIntType (r : Z) (size : nat) : list N :=
  gen_loop r size (if (r <? 0)%Z then replicate 32 255 else replicate 32 0).

(* abi/topics.go:33-95: one rule *)
Definition MakeTopic (r : rule) : res (list N) :=
  match r with
  | RAddress s => topic_put (32 - 20) s zero_topic
  | RVal (VNum KBig z) => let blob := be_bytes (Z.abs_N z) in topic_put (32 - zlen blob)%Z blob zero_topic
  | RVal (VNum KI8 z) => Ok (genIntType z 1)
  | RVal (VNum KI16 z) => Ok (genIntType z 2)
  | RVal (VNum KI32 z) => Ok (genIntType z 4)
  | RVal (VNum KI64 z) => Ok (genIntType z 8)
  | RVal (VNum _ z) => let blob := be_bytes (Z.to_N z) in topic_put (32 - zlen blob)%Z blob zero_topic
  | RVal (VBool b) => Ok (if b then <[31%nat := 1]> zero_topic else zero_topic)
  | RVal (VString s) | RVal (VBytes s) => Ok (Hash256 s)
  | RVal (VArr s) => if (32 <? length s)%nat then Panic else topic_put 0 s zero_topic
  | RVal (VList _) | RVal (VTuple _) => Err
  end.
(* abi/topics.go:30-98: one filter *)
Fixpoint MakeTopics (rs : list rule) : res (list (list N)) :=
  match rs with
  | [] => Ok []
  | r :: rs' => rbind (MakeTopic r) (fun t => rbind (MakeTopics rs') (fun ts => Ok (t :: ts)))
  end.

(* abi/topics.go:141-169: one field; the hash of a dynamic value is handed over as
   a 32-byte array *)
Definition parseTopic (arg : bool * aty) (topic : list N) : res val :=
  if negb arg.1 then Err
  else match arg.2 with
  | TTuple _ => Err
  | TString | TBytes | TSlice _ | TArray _ _ => Ok (VArr topic)
  | TFunction =>
      rbind (sl topic 0 8) (fun g =>
        if be_num g =? 0 then rbind (sl topic 8 32) (fun x => Ok (VArr x)) else Err)
  | t => toGoType t 0 topic
  end.
(* abi/topics.go:135-172: the values handed to the setter *)
Fixpoint parse_fields (fields : list (bool * aty)) (topics : list (list N)) : res (list val) :=
  match fields, topics with
  | f :: fs, t :: ts => rbind (parseTopic f t) (fun v => rbind (parse_fields fs ts) (fun vs => Ok (v :: vs)))
  | _, _ => Ok []
  end.
Definition ParseTopics (fields : list (bool * aty)) (topics : list (list N)) : res (list val) :=
  if (length fields =? length topics)%nat then parse_fields fields topics else Err.
End Topics.

(* ----------------------------------------------------------------- events *)
(** The inputs of an event: (indexed, type). *)
Definition event := list (bool * aty).

(* abi/argument.go:64-72 *)
Definition NonIndexed (args : event) : list aty :=
  omap (fun '(ix, t) => if (ix : bool) then None else Some t) args.

(* abi/abi.go:231-238; an ABI is a list of events with their ids *)
Fixpoint EventByID (evs : list (list N * event)) (id : list N) : option event :=
  match evs with
  | [] => None
  | (i, e) :: r => if decide (i = id) then Some e else EventByID r id
  end.

(* abi/thinkium.go:86-94 and abi/abi.go:443-452 *)
Definition event_values (args : event) (data : list N) : res (list val) :=
  let values := match data with [] => Ok [] | _ => Unpack (NonIndexed args) data end in
  rbind values (fun vs => if (length (NonIndexed args) =? length vs)%nat then Ok vs else Err).

(* abi/thinkium.go:98-113: stops at the first argument that is not indexed *)
Fixpoint event_topics (args : event) (i : nat) (topics : list (list N)) : res (list val) :=
  match args with
  | (true, t) :: args' =>
      match topics !! (1 + i)%nat with
      | None => Err
      | Some topic =>
          rbind (toGoType t 0 topic) (fun v =>
            rbind (event_topics args' (S i) topics) (fun vs => Ok (v :: vs)))
      end
  | _ => Ok []
  end.

(* abi/thinkium.go:19-73 CopyEvent into a destination with one assignable place per
   argument; the result lists what each place receives *)
Definition CopyEvent (args : event) (values : list val) : res (list val) :=
  match values with
  | [] => match NonIndexed args with [] => Ok [] | _ => Err end
  | v :: _ =>
      if (1 <? length args)%nat then
        if (length values <? length args)%nat then Panic else Ok (take (length args) values)
      else Ok [v]
  end.

(* abi/thinkium.go:75-116 *)
Definition UnpackEvent (evs : list (list N * event)) (topics : list (list N)) (data : list N) : res (list val) :=
  match topics with
  | [] => Err
  | id :: _ =>
      match EventByID evs id with
      | None => Err
      | Some args =>
          rbind (event_values args data) (fun values =>
            rbind (event_topics args 0 topics) (fun ret => CopyEvent args (ret ++ values)))
      end
  end.

(* abi/abi.go:457-476: the values written for each argument; values[i-indexes] *)
Fixpoint event_string_loop (args : event) (i indexes : nat) (topics : list (list N)) (values : list val)
    : res (list val) :=
  match args with
  | [] => Ok []
  | (true, t) :: args' =>
      match topics !! (1 + i)%nat with
      | None => Err
      | Some topic =>
          rbind (toGoType t 0 topic) (fun v =>
            rbind (event_string_loop args' (S i) (S indexes) topics values) (fun vs => Ok (v :: vs)))
      end
  | (false, t) :: args' =>
      match values !! (i - indexes)%nat with
      | None => Panic
      | Some v => rbind (event_string_loop args' (S i) indexes topics values) (fun vs => Ok (v :: vs))
      end
  end.
(* abi/abi.go:433-479, without the formatting *)
Definition EventString (evs : list (list N * event)) (topics : list (list N)) (data : list N) : res (list val) :=
  match topics with
  | [] => Err
  | id :: _ =>
      match EventByID evs id with
      | None => Err
      | Some args =>
          rbind (event_values args data) (fun values => event_string_loop args 0 0 topics values)
      end
  end.
