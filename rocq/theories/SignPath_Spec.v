(** RFC 3986, section 5.2.4: removing dot segments, step by step, and what the
    normal form of a path is. *)
From Verif Require Import Base PyText_Model Sign_Model.
Local Open Scope N_scope.

(** The output buffer without its last segment and the slash before it. *)
Definition drop_last (out : text) : text :=
  match drop_while (fun c => negb (c =? 47)) (rev out) with
  | [] => []
  | _ :: r => rev r
  end.

(** The first path segment of the input with the slash before it, if any. *)
Fixpoint until_slash (s : text) : text :=
  match s with
  | [] => []
  | c :: r => if c =? 47 then [] else c :: until_slash r
  end.
Definition first_segment (s : text) : text :=
  match s with
  | [] => []
  | c :: r => if c =? 47 then 47 :: until_slash r else until_slash s
  end.

(** One step on the output buffer and a non-empty input; the letters are those of
    the RFC. *)
Definition rfc_step (out inp : text) : text * text :=
  if starts_with [46; 46; 47] inp then (out, skipn 3 inp)                          (* A *)
  else if starts_with [46; 47] inp then (out, skipn 2 inp)
  else if starts_with [47; 46; 47] inp then (out, skipn 2 inp)                     (* B *)
  else if text_eqb inp [47; 46] then (out, [47])
  else if starts_with [47; 46; 46; 47] inp then (drop_last out, skipn 3 inp)       (* C *)
  else if text_eqb inp [47; 46; 46] then (drop_last out, [47])
  else if text_eqb inp [46] || text_eqb inp [46; 46] then (out, [])                (* D *)
  else let seg := first_segment inp in (out ++ seg, skipn (List.length seg) inp).  (* E *)

(** [Dots out inp res]: the loop ends with [res]. *)
Inductive Dots : text -> text -> text -> Prop :=
| dots_end o : Dots o [] o
| dots_step o i o' i' r : i <> [] -> rfc_step o i = (o', i') -> Dots o' i' r -> Dots o i r.

(** Where the code follows the RFC: if [..] climbs above the root, the next
    segment that stays is not empty.  [climbed] says whether that happened,
    [depth] how many segments are on the way. *)
Fixpoint root_safe (climbed : bool) (depth : nat) (segs : list text) : Prop :=
  match segs with
  | [] => True
  | s :: r =>
    if text_eqb s DOT then root_safe climbed depth r
    else if text_eqb s DOTDOT then
      match depth with
      | O => root_safe true O r
      | S d => root_safe climbed d r
      end
    else (climbed = true -> depth = O -> s <> []) /\ root_safe climbed (S depth) r
  end.

(** A path never climbs above its root. *)
Fixpoint stays_below (depth : nat) (segs : list text) : Prop :=
  match segs with
  | [] => True
  | s :: r =>
    if text_eqb s DOT then stays_below depth r
    else if text_eqb s DOTDOT then match depth with O => False | S d => stays_below d r end
    else stays_below (S depth) r
  end.

Definition dot_free (path : text) : Prop := ~ In DOT (split_on 47 path) /\ ~ In DOTDOT (split_on 47 path).
Definition absolute (path : text) : Prop := exists r, path = 47 :: r.
(** The path names a directory: it ends in a slash or a dot segment. *)
Definition directory (path : text) : Prop := In (List.last (split_on 47 path) []) [[]; DOT; DOTDOT].
