(** What the properties of enumerations are stated with. *)
From Verif Require Import Base UnknownEnum_Model.

(** What a program can get to by defining enumerations, writing texts and numbers,
    calling the classes, making placeholders and unpickling, in any order. *)
Definition reachable (w : world) : Prop := exists l, w = run l empty_world.
(** What a program can get to from there. *)
Definition later (w w' : world) : Prop := exists l, w' = run l w.
(** A text or number that is not of an enumeration with the mixin. *)
Definition raw (o : obj) : Prop := o_kind o = Plain \/ o_kind o = Subclass.
(** A [str], an [int] or a value of an enumeration with the mixin. *)
Definition ordinary (o : obj) : Prop := o_kind o = Plain \/ exists c, o_kind o = Enum c.
