(** What the struct tags of package rlp mean, independently of the parser. *)
From Verif Require Import Base RlpTypeModel RlpTagModel.

(** White space, and words without it at the ends and without commas. *)
Definition blanks (s : list N) : Prop := Forall (fun c => c = 32 \/ 9 <= c <= 13) s.
Definition plain_word (w : list N) : Prop :=
  44 ∉ w /\ (forall c, head w = Some c -> ~ blanks [c]) /\ (forall c, last w = Some c -> ~ blanks [c]).

(** Tag [s] is a list of words separated by commas, [w] is one of them, and what
    comes behind it is [post] (empty, or a comma and more words). *)
Definition word_at (s w post : list N) : Prop :=
  exists pre b1 b2, s = pre ++ b1 ++ w ++ b2 ++ post /\ blanks b1 /\ blanks b2 /\
    (pre = [] \/ exists p, pre = p ++ [44]) /\ (post = [] \/ exists q, post = 44 :: q).
Definition says (f : field) (w : list N) : Prop := exists post, word_at (f_tag f) w post.

(** The kind of nil value a word asks for, in a pointer to [e]. *)
Inductive nil_word (e : typ) : list N -> N -> Prop :=
| nw_nil : nil_word e s_nil (DefaultNilValue e)
| nw_string : nil_word e s_nilString 0x80
| nw_list : nil_word e s_nilList 0xC0.
Definition asks_nil (w : list N) : Prop := w = s_nil \/ w = s_nilString \/ w = s_nilList.

(** The fields that are encoded. *)
Definition encoded (f : field) : Prop := f_exported f = true /\ ~ says f s_ignore.

(** The tag of field [f], at position [i] of [fs], is in order. *)
Record tag_ok (fs : list field) (i : nat) (f : field) : Prop := TagOk {
  ok_known : forall w post, word_at (f_tag f) w post -> plain_word w ->
    w = [] \/ w = s_ignore \/ asks_nil w \/ w = s_optional \/ w = s_tail;
  ok_nil : (exists w, asks_nil w /\ says f w) -> exists e, f_type f = TPtr e;
  ok_opt_tail : ~ (says f s_optional /\ says f s_tail);
  ok_tail : says f s_tail -> (exists e, f_type f = TSlice e) /\
    (* no exported field comes later, not even an ignored one *)
    forall j g, (i < j)%nat -> fs !! j = Some g -> f_exported g = false;
}.

(** The whole struct is in order: after a field that may be missing, all may. *)
Definition struct_ok (fs : list field) : Prop :=
  (forall i f, fs !! i = Some f -> f_exported f = true -> tag_ok fs i f) /\
  (forall i j f g, (i < j)%nat -> fs !! i = Some f -> fs !! j = Some g -> encoded f -> encoded g ->
     says f s_optional \/ says f s_tail -> says g s_optional \/ says g s_tail).

(** [ts] says what the tag of [f] says. With several words for nil the last one
    counts. *)
Record tags_mean (f : field) (ts : tags) : Prop := TagsMean {
  tm_optional : t_optional ts = true <-> says f s_optional;
  tm_tail : t_tail ts = true <-> says f s_tail;
  tm_ignored : t_ignored ts = true <-> says f s_ignore;
  tm_nilok : t_nilok ts = true <-> exists w, asks_nil w /\ says f w;
  tm_nilkind : t_nilok ts = true -> exists e w post, f_type f = TPtr e /\ word_at (f_tag f) w post /\
    nil_word e w (t_nilkind ts) /\
    forall q w' post', post = 44 :: q -> word_at q w' post' -> ~ asks_nil w';
}.

(** Fields carry their positions (rlp/typecache.go:128-140, structFields). *)
Definition indexed (fs : list field) : Prop := forall i f, fs !! i = Some f -> f_index f = i.

(** The accepted fields as the encoder and decoder of RlpTypeModel.v see them; [ty]
    gives their types. *)
Definition tag_kind (ts : tags) : ftag := if t_tail ts then FTail else if t_optional ts then FOpt else FPlain.
Fixpoint to_rfields (ty : field -> rty) (r : list (field * tags)) : rfields :=
  match r with [] => FNil | (f, ts) :: r => FCons (tag_kind ts) (ty f) (to_rfields ty r) end.

