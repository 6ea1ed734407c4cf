(** Timestamps in the headers of event messages:
    packages/smithy-aws-event-stream/src/smithy_aws_event_stream/events.py lines
    528-537 and 684-696, on the datetimes and floats of Time_Model.
    Simplification: aware datetimes only (a naive one is read in the local zone of
    the machine, which is an input of the platform). *)
From Verif Require Import Base Time_Model EventStream_Model.
Local Open Scope Z_scope.

(** line 535: [int(value.timestamp() * 1000)] *)
Definition event_millis (d : datetime) : Z := trunc (fmul (timestamp d) 1000).
(** lines 528-537: [encode_timestamp], without the key *)
Definition encode_timestamp (d : datetime) : result bytes := pack_signed 8 (event_millis d).
(** lines 694-695: [TimestampFormat.EPOCH_SECONDS.deserialize(int_value / 1000)];
    types.py lines 127-182 give a float to [epoch_seconds_to_datetime] *)
Definition unpack_timestamp (data : bytes) : result (datetime * nat) :=
  do '(int_value, consumed) <- dec_int 8 data;
  do d <- epoch_seconds_to_datetime (SFloat (ratio int_value 1000));
  Ok (d, consumed).
