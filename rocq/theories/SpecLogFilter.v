(** Independent specification for the logging property C64. *)
From Coq Require Import String List.
From Verif Require Import LogFilter.
Import ListNotations.

(** A record is kept after the records [before] if its logger is not filtered, or its message has not been
    sent to a filtered logger yet. *)
Definition kept (names : list string) (before : list log_record) (r : log_record) : Prop :=
  ~ In (logger r) names \/ (forall r', In r' before -> In (logger r') names -> msg r' <> msg r).

(** [quiet_output names sent emitted]: sending the records [sent] emits [emitted]. *)
Inductive quiet_output (names : list string) : list log_record -> list log_record -> Prop :=
| quiet_nil : quiet_output names [] []
| quiet_keep sent emitted r : quiet_output names sent emitted -> kept names sent r -> quiet_output names (sent ++ [r]) (emitted ++ [r])
| quiet_drop sent emitted r : quiet_output names sent emitted -> ~ kept names sent r -> quiet_output names (sent ++ [r]) emitted.

(** With blocks of one filter object are not nested in each other, and [active] are the objects of the enclosing blocks. *)
Inductive well_nested : list filter_id -> action -> Prop :=
| wn_log active r : well_nested active (Log r)
| wn_raise active : well_nested active Raise
| wn_with active f names body : ~ In f active -> (forall a, In a body -> well_nested (f :: active) a) -> well_nested active (With f names body).

(** No logger has filters. *)
Definition no_filters (st : log_state) : Prop := forall n, attached st n = [].
