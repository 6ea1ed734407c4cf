(** What a body contains, and the fields of a request. *)
From Verif Require Import Base PyText_Model PyDict_Model Fields_Model Transport_Model.
Local Open Scope N_scope.

(** The bytes still to be read. *)
Definition content (b : body) : bytes :=
  let left r := skipn (d_pos r) (d_data r) in
  match b with
  | BBytes b | BArray b => b
  | BReader r => left r
  | BIter chunks | BRestart chunks => List.concat chunks
  | BWrapped w => match w_src w with SReader r => left r | SOnce c | SRestart c => w_rem w ++ List.concat c end
  end.
(** An [AsyncBytesReader] around an iterable that starts again each time. *)
Definition restarting (b : body) : Prop := exists rem c, b = BWrapped (mkWrapped rem (SRestart c)).
(** An object with a synchronous [read]. *)
Definition sync_reader (b : body) : Prop := exists r, b = BReader r /\ d_async r = false.

Section Fields.
  Variable lower : text -> text.
  (** Fields kept under their names in lower case. *)
  Definition fields_ok (e : list (text * field)) : Prop := NoDup (map fst e) /\ Forall (fun kf => fst kf = lower (f_name (snd kf))) e.
  (** The field of a name. *)
  Definition field_of (e : list (text * field)) (name : text) : option field :=
    match find (fun kf => text_eqb (fst kf) (lower name)) e with Some (_, f) => Some f | None => None end.
  (** The headers of a list that have a name. *)
  Definition named (name : text) (hs : list (text * text)) : list (text * text) := filter (fun h => text_eqb (lower (fst h)) (lower name)) hs.
End Fields.
