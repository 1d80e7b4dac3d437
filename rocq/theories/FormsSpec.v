(** What the dashboard's forms mean (C47, C59), stated without the parsers. *)
From Verif Require Import Prelude Text CronParseSpec Forms.
Open Scope Z_scope.

(** [r] is [l] with every element kept at its first occurrence only *)
Definition first_occurrences {A} (l r : list A) : Prop :=
  NoDup r /\ (forall x, In x r <-> In x l) /\
  forall r1 x r2, r = r1 ++ x :: r2 -> exists l1 l2, l = l1 ++ x :: l2 /\ forall y, In y l1 <-> In y r1.
(** ids separated by commas, with space around and between; blank pieces count for nothing *)
Inductive written_ids : list string -> string -> Prop :=
| wi_blank p : spaces p -> written_ids [] p
| wi_one p w q : spaces p -> tidy w -> spaces q -> written_ids [w] (p ++ w ++ q)
| wi_more ids1 s1 ids2 s2 : written_ids ids1 s1 -> written_ids ids2 s2 -> written_ids (ids1 ++ ids2) (s1 ++ "," ++ s2).
(** a text that opens a JSON list *)
Definition opens_list (s : string) : Prop := exists p r, spaces p /\ s = (p ++ "[" ++ r)%string.

(** integers: digits, single underscores between them, a sign, space around *)
Inductive grouped : string -> Z -> Prop :=
| g_one k a : digit k a -> grouped (String a EmptyString) k
| g_more d n k a : grouped d n -> digit k a -> grouped (d ++ String a EmptyString) (10 * n + k)
| g_under d n k a : grouped d n -> digit k a -> grouped (d ++ "_" ++ String a EmptyString) (10 * n + k).
Inductive signed : string -> Z -> Prop :=
| s_plain d n : grouped d n -> signed d n
| s_plus d n : grouped d n -> signed ("+" ++ d) n
| s_minus d n : grouped d n -> signed ("-" ++ d) (- n).
Definition int_text (s : string) (n : Z) : Prop := exists p d q, spaces p /\ spaces q /\ signed d n /\ s = (p ++ d ++ q)%string.

(** the text of an interval: a number and a unit, seconds when there is none *)
Inductive interval_text : string -> string -> Z -> Prop :=
| it_seconds d n : int_text d n -> interval_text (d ++ "s") "seconds" n
| it_minutes d n : int_text d n -> interval_text (d ++ "m") "minutes" n
| it_hours d n : int_text d n -> interval_text (d ++ "h") "hours" n
| it_bare d n : int_text d n -> interval_text d "seconds" n.
(** [s] is [core], in any case, with space around *)
Definition says (core s : string) : Prop := exists p w q, spaces p /\ spaces q /\ s = (p ++ w ++ q)%string /\ lower w = core.

(** an offset as a form sends it after its sign became a blank: five characters, the third a colon, the others
    digits or colons, with a digit among them; the ISO text a date form stands for *)
Definition offset_text (t : string) : Prop :=
  exists a b d e, t = String a (String b (String ":" (String d (String e "")))) /\ Forall (fun c => (exists k, digit k c) \/ c = ":"%char) [a; b; d; e] /\ Exists (fun c => exists k, digit k c) [a; b; d; e].
Inductive mended : string -> string -> Prop :=
| me_offset h t : (exists x y, (h ++ " " ++ t)%string = (x ++ "T" ++ y)%string) -> offset_text t -> mended (h ++ " " ++ t) (h ++ "+" ++ t)
| me_same s : ~ (exists h t, s = (h ++ " " ++ t)%string /\ (exists x y, s = (x ++ "T" ++ y)%string) /\ offset_text t) -> mended s s.
