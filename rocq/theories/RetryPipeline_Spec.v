(** What C12 says of a whole call. *)
From Verif Require Import Base Retry_Model Client_Model Client_Spec.

(** [info] says what an error tells a retry strategy; this one is marked safe to retry. *)
Definition safe_to_retry {X} (info : X -> option retry_info) (e : X) : Prop :=
  exists i, info e = Some i /\ ri_safe i = Some true.

(** An attempt begins with its hook read_before_attempt. *)
Definition begins_attempt {S} (e : event S) : bool :=
  match e with EvRead RBeforeAttempt _ _ => true | _ => false end.
Definition attempts_of {S} (es : list (event S)) : Z := Z.of_nat (List.length (filter begins_attempt es)).
Definition sends_of {S} (es : list (event S)) : Z := Z.of_nat (List.length (filter is_send es)).

(** The uses a call makes of its retry strategy, in order. *)
Definition about_strategy {S} (e : event S) : bool :=
  match e with EvAcquire _ | EvRefresh _ _ _ | EvSuccess _ _ => true | _ => false end.
(** The uses of an operation that holds token [t]: it reports success with it, or
    a failure with it; after a failure it goes on with the token it was given, or
    ends if it was given none, or if its request could not be rewound. *)
Inductive uses_from {S} : Tok S -> list (event S) -> Prop :=
| uses_success t x : uses_from t [EvSuccess t x]
| uses_refused t e y : uses_from t [EvRefresh t e (inr y)]
| uses_abandoned t e t' : uses_from t [EvRefresh t e (inl t')]
| uses_retry t e t' l : uses_from t' l -> uses_from t (EvRefresh t e (inl t') :: l).
