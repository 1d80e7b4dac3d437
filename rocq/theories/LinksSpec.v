(** What the claims about links speak of, without the model. *)
From Coq Require Import String Ascii List NArith.
Import ListNotations.
Open Scope string_scope.

Definition has (c : ascii) (s : string) : Prop := exists u v, s = u ++ String c v.
Definition hexadecimal (c : ascii) : Prop := In c (list_ascii_of_string "0123456789abcdefABCDEF").
Definition whitespace (c : ascii) : Prop := let n := N_of_ascii c in (9 <= n <= 13 \/ 28 <= n <= 32)%N.
(** a percent sign before two hexadecimal digits *)
Definition has_escape (s : string) : Prop := exists u h l v, s = u ++ String "%" (String h (String l v)) /\ hexadecimal h /\ hexadecimal l.
(** a space or a control character at one end *)
Definition blank_first (s : string) : Prop := exists c v, s = String c v /\ (N_of_ascii c <= 32)%N.
Definition blank_last (s : string) : Prop := exists u c, s = u ++ String c "" /\ (N_of_ascii c <= 32)%N.
Definition space_first (s : string) : Prop := exists c v, s = String c v /\ whitespace c.
(** it begins like an address of its own, e.g. "mailto:" *)
Definition alpha (c : ascii) : Prop := In c (list_ascii_of_string "ABCDEFGHIJKLMNOPQRSTUVWXYZabcdefghijklmnopqrstuvwxyz").
Definition scheme_letter (c : ascii) : Prop := alpha c \/ In c (list_ascii_of_string "0123456789+-.").
Definition names_scheme (s : string) : Prop := exists c p r, s = String c (p ++ String ":" r) /\ alpha c /\ Forall scheme_letter (list_ascii_of_string p).
Definition has_break (s : string) : Prop := has "009" s \/ has "010" s \/ has "013" s.
(** an id that stays one segment of a path *)
Definition one_segment (id : string) : Prop :=
  id <> "" /\ id <> "." /\ id <> ".." /\ ~ has "/" id /\ ~ has "\" id /\ ~ has "?" id /\ ~ has "#" id /\ ~ has_break id /\ ~ has_escape id.
(** an id that stays one value of a query *)
Definition one_value (id : string) : Prop :=
  ~ has "#" id /\ ~ has "&" id /\ ~ has "+" id /\ ~ has_break id /\ ~ has_escape id /\ ~ space_first id /\ ~ blank_last id.
(** letters, digits and - _ . ~ *)
Definition simple_char (c : ascii) : Prop := alpha c \/ In c (list_ascii_of_string "0123456789-_.~").
Definition simple (s : string) : Prop := s <> "" /\ s <> "." /\ s <> ".." /\ Forall simple_char (list_ascii_of_string s).
