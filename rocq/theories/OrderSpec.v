(** * OrderSpec: the order of the columns a client sees *)
From Coq Require Import String List ZArith Sorted.
From Verif Require Import GoBase GoSpec InstanceModel PeriodModel PeriodSpec GridSpec ColumnSpec.
Import ListNotations.
Local Open Scope string_scope.

(** the number of dimension members of a context: each text of a typed member counts *)
Definition members_count (c : context) : nat := length (explicit_of c) + length (flat_map tmMap (typed_of c)).
(** by period, as written; in a period by the number of dimension members *)
Definition column_before (a b : context) : Prop :=
  exists p q, GridSpec.period_of a p /\ GridSpec.period_of b q /\ (slt p q \/ p = q /\ members_count a <= members_count b).
Definition in_order (cols : list context) : Prop := StronglySorted column_before cols.

(** ** In time *)

(** the first day of the period of a context, or the day of its instant *)
Definition begins (c : context) (s : string) : Prop :=
  (ctxStart c <> "" /\ ctxEnd c <> "" /\ s = ctxStart c) \/ ((ctxStart c = "" \/ ctxEnd c = "") /\ s = ctxInstant c).
Definition not_after (d e : date) : Prop :=
  (dYear d < dYear e \/ dYear d = dYear e /\ (dMonth d < dMonth e \/ dMonth d = dMonth e /\ dDay d <= dDay e))%Z.
