(** The event publisher of a signed request.
    V = packages/smithy-aws-core/src/smithy_aws_core/auth/sigv4.py
    P = packages/smithy-aws-core/src/smithy_aws_core/aio/protocols.py *)
From Verif Require Import Base Utf8_Model PyText_Model PyDict_Model Sign_Model.
From Verif Require EventIO_Model.
Local Open Scope N_scope.

(** [re.split(sep, s)[-1]] for a separator without special characters: what
    follows the last match, where matches are looked for from the left and do not
    overlap.  [k] characters are still those of a match; [cur] is what follows the
    last match so far. *)
Fixpoint after_last (sep : text) (k : nat) (s cur : text) : text :=
  match s with
  | [] => cur
  | _ :: r =>
    match k with
    | S k' => after_last sep k' r cur
    | O =>
      if starts_with sep s
      then after_last sep (List.length sep - 1) r (skipn (List.length sep) s)
      else after_last sep 0 r cur
    end
  end.

(** V 99-113, [event_signer]: the signature the signer of events starts with.  The
    event stream package is installed. *)
Definition event_signer (lower : text -> text) (fs : fields) : result bytes :=
  match get_field lower (lit "Authorization") fs with
  | None => Err KeyError
  | Some f =>
    let auth_value := as_string (f_values f) in
    utf8_encode (after_last (lit "Signature=") 0 auth_value auth_value)
  end.

(** P 186-227, [create_event_publisher], for a body that can be written to.
    [scheme] has the region and the service, if there is an authentication scheme. *)
Definition create_event_publisher (lower : text -> text) (scheme : option EventIO_Model.sprops) (fs : fields) : result EventIO_Model.pub :=
  match scheme with
  | None => Ok (EventIO_Model.pub_init None)
  | Some p => do seed <- event_signer lower fs; Ok (EventIO_Model.pub_init (Some (p, seed)))
  end.
