(** Model of /repo/tokamak_neutron_source/tools.py:299-331 (WarningFilter, QuietTTSpectrumWarnings) and of the part of
    Python's logging module they use: Filterer.addFilter, removeFilter and filter, and Logger.handle. Levels,
    handlers and propagation are not modelled: a record that passes its logger's filters counts as emitted. *)
From Coq Require Import String List Bool Arith.
Import ListNotations.

(** WarningFilter.filter, tools.py:309-314, applied to a sequence of messages; [seen] is self.msgs. *)
Fixpoint filter_duplicates {A} (eqb : A -> A -> bool) (seen l : list A) : list A :=
  match l with
  | [] => []
  | m :: l' => if existsb (eqb m) seen then filter_duplicates eqb seen l'
               else m :: filter_duplicates eqb (m :: seen) l'
  end.

(** A log record: the name of its logger and str(record.msg). *)
Record log_record := { logger : string; msg : string }.

(** A filter object is a number. *)
Definition filter_id := nat.

(** The state: the filters attached to each logger, in order, and the msgs set of each filter object. *)
Record log_state := { attached : string -> list filter_id; msgs : filter_id -> list string }.

Definition memb_str (m : string) (l : list string) : bool := existsb (String.eqb m) l.

(** WarningFilter.filter, tools.py:309-314. *)
Definition wf_filter (st : log_state) (f : filter_id) (m : string) : bool * log_state :=
  let is_duplicate := memb_str m (msgs st f) in
  (negb is_duplicate,
   if is_duplicate then st
   else {| attached := attached st; msgs := fun g => if Nat.eqb g f then m :: msgs st f else msgs st g |}).

(** logging.Filterer.filter: all filters in order, stopping at the first that refuses. *)
Fixpoint run_filters (st : log_state) (fs : list filter_id) (m : string) : bool * log_state :=
  match fs with
  | [] => (true, st)
  | f :: fs' => let '(ok, st) := wf_filter st f m in
                if ok then run_filters st fs' m else (false, st)
  end.
(** logging.Logger.handle. *)
Definition handle (st : log_state) (r : log_record) : list log_record * log_state :=
  let '(ok, st) := run_filters st (attached st (logger r)) (msg r) in
  (if ok then [r] else [], st).

(** logging.Filterer.addFilter and removeFilter on the logger called [n]. *)
Definition add_filter (st : log_state) (n : string) (f : filter_id) : log_state :=
  if existsb (Nat.eqb f) (attached st n) then st
  else {| attached := fun k => if String.eqb k n then attached st n ++ [f] else attached st k; msgs := msgs st |}.
Fixpoint remove_first (f : filter_id) (l : list filter_id) : list filter_id :=
  match l with [] => [] | g :: l' => if Nat.eqb f g then l' else g :: remove_first f l' end.
Definition remove_filter (st : log_state) (n : string) (f : filter_id) : log_state :=
  {| attached := fun k => if String.eqb k n then remove_first f (attached st n) else attached st k; msgs := msgs st |}.

(** __enter__ and __exit__, tools.py:316-322; [names] are the loggers given to __init__, tools.py:305-307. *)
Definition enter (names : list string) (st : log_state) (f : filter_id) : log_state :=
  fold_left (fun st n => add_filter st n f) names st.
Definition exit (names : list string) (st : log_state) (f : filter_id) : log_state :=
  fold_left (fun st n => remove_filter st n f) names st.

(** The loggers of QuietTTSpectrumWarnings, tools.py:325-331. *)
Definition quiet_names : list string := ["tokamak_neutron_source.energy"%string; "tokamak_neutron_source.energy_data"%string].

(** Programs as far as logging is concerned: a log call, an exception, or a with block around a body. *)
Inductive action :=
| Log (r : log_record)
| Raise
| With (f : filter_id) (names : list string) (body : list action).

(** Running an action: what is emitted, the state, and whether an exception is propagating. A with
    block runs __exit__ whether or not its body raises, and __exit__ returns None, so the exception goes on. *)
Fixpoint run (st : log_state) (a : action) : list log_record * log_state * bool :=
  match a with
  | Log r => let '(out, st) := handle st r in (out, st, false)
  | Raise => ([], st, true)
  | With f names body =>
      let fix go st l := match l with
        | [] => ([], st, false)
        | b :: l' => let '(out, st, raised) := run st b in
                     if raised then (out, st, true)
                     else let '(out', st, raised) := go st l' in (out ++ out', st, raised)
        end in
      let '(out, st, raised) := go (enter names st f) body in
      (out, exit names st f, raised)
  end.
Fixpoint run_all (st : log_state) (l : list action) : list log_record * log_state * bool :=
  match l with
  | [] => ([], st, false)
  | b :: l' => let '(out, st, raised) := run st b in
               if raised then (out, st, true)
               else let '(out', st, raised) := run_all st l' in (out ++ out', st, raised)
  end.
