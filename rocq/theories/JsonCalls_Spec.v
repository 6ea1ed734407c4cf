(** What the calls of a shape say: the value they make, when they make one; which
    calls agree up to the point where one of them raises. *)
From Verif Require Import Base PyDecimal_Model Json_Model JsonCalls_Model.

(** The value that one method writes: all the integers are the same to JSON, and
    so are a float and a double.  A data stream is no value. *)
Inductive Method_value : method -> value -> Prop :=
| Mv_null : Method_value MNull VNull
| Mv_bool b : Method_value (MBoolean b) (VBool b)
| Mv_byte z : Method_value (MByte z) (VInt z)
| Mv_short z : Method_value (MShort z) (VInt z)
| Mv_integer z : Method_value (MInteger z) (VInt z)
| Mv_long z : Method_value (MLong z) (VInt z)
| Mv_big z : Method_value (MBigInteger z) (VInt z)
| Mv_float f : Method_value (MFloat f) (VFloat f)
| Mv_double f : Method_value (MDouble f) (VFloat f)
| Mv_decimal d : Method_value (MBigDecimal d) (VDecimal d)
| Mv_string s : Method_value (MString s) (VStr s)
| Mv_blob bs : Method_value (MBlob bs) (VBlob bs)
| Mv_time tr t : Method_value (MTimestamp tr t) (VTime tr t)
| Mv_doc p : Method_value (MDocument p) (VDoc p).

(** The value that a tree of calls makes.  Calls that raise on their own account,
    data streams and members without a name make none. *)
Inductive Makes : call -> value -> Prop :=
| Mk_write m v : Method_value m v -> Makes (CWrite m) v
| Mk_struct n ms vs : Makes_members ms vs -> Makes (CStruct n ms) (VStruct n vs)
| Mk_list l vs : Makes_elements l vs -> Makes (CList l) (VList vs)
| Mk_map l vs : Makes_entries l vs -> Makes (CMap l) (VMap vs)
with Makes_members : list (option text * call) -> list (text * value) -> Prop :=
| Mm_nil : Makes_members [] []
| Mm_cons k c v ms vs : Makes c v -> Makes_members ms vs -> Makes_members ((Some k, c) :: ms) ((k, v) :: vs)
with Makes_elements : list call -> list value -> Prop :=
| Me_nil : Makes_elements [] []
| Me_cons c v l vs : Makes c v -> Makes_elements l vs -> Makes_elements (c :: l) (v :: vs)
with Makes_entries : list (text * call) -> list (text * value) -> Prop :=
| Mn_nil : Makes_entries [] []
| Mn_cons k c v l vs : Makes c v -> Makes_entries l vs -> Makes_entries ((k, c) :: l) ((k, v) :: vs).

(** [Raises c e c']: [c] raises [e] by itself at some point, and [c'] makes the
    same calls up to that point; what it does then, there and in every enclosing
    structure, list or map, is arbitrary. *)
Inductive Raises (e : exn) : call -> call -> Prop :=
| Ra_here c' : Raises e (CRaise e) c'
| Ra_struct n pre k c c' post post' : Raises e c c' ->
    Raises e (CStruct n (pre ++ (Some k, c) :: post)) (CStruct n (pre ++ (Some k, c') :: post'))
| Ra_list pre c c' post post' : Raises e c c' ->
    Raises e (CList (pre ++ c :: post)) (CList (pre ++ c' :: post'))
| Ra_map pre k c c' post post' : Raises e c c' ->
    Raises e (CMap (pre ++ (k, c) :: post)) (CMap (pre ++ (k, c') :: post')).
