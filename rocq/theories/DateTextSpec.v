(** The textual forms of a date (C51), stated without the parser. *)
From Verif Require Import Prelude Text Calendar CronParseSpec DateText.
Open Scope Z_scope.

Definition digits (lo hi : nat) (d : string) (n : Z) : Prop := numeral d n /\ (lo <= String.length d <= hi)%nat.
(** a newline at the very end is tolerated *)
Inductive ending : string -> Prop := e_none : ending "" | e_newline : ending (String (ascii_of_nat 10) "").
Inductive fraction_text : string -> Z -> Prop :=
| ft_none : fraction_text "" 0
| ft_some f n : digits 1 6 f n -> fraction_text ("." ++ f) n.
Inductive zone_text : string -> tzname -> Prop :=
| zt_none : zone_text "" NoTz
| zt_z : zone_text "Z" Zulu
| zt_plus h m hn mn : digits 2 2 h hn -> digits 2 2 m mn -> zone_text ("+" ++ h ++ ":" ++ m) (Off 1 hn mn)
| zt_minus h m hn mn : digits 2 2 h hn -> digits 2 2 m mn -> zone_text ("-" ++ h ++ ":" ++ m) (Off (-1) hn mn).
Inductive date_text : string -> civil -> Z -> tzname -> Prop :=
| dx_day y m d yn mn dn e : digits 4 4 y yn -> digits 1 2 m mn -> digits 1 2 d dn -> ending e ->
    date_text (y ++ "-" ++ m ++ "-" ++ d ++ e) (MkCivil yn mn dn 0 0 0) 0 NoTz
| dx_time y m d h mi s yn mn dn hn min sn sep f us z tz e : digits 4 4 y yn -> digits 1 2 m mn -> digits 1 2 d dn -> digits 1 2 h hn -> digits 1 2 mi min -> digits 1 2 s sn ->
    (sep = " " \/ sep = "T")%string -> fraction_text f us -> zone_text z tz -> ending e ->
    date_text (y ++ "-" ++ m ++ "-" ++ d ++ sep ++ h ++ ":" ++ mi ++ ":" ++ s ++ f ++ z ++ e) (MkCivil yn mn dn hn min sn) us tz.
(** the zone a text stands for *)
Inductive zone_of {T} (tz : option T) : tzname -> option (zone T) -> Prop :=
| zo_none : zone_of tz NoTz (option_map Named tz)
| zo_z : zone_of tz Zulu (Some (Fixed 0))
| zo_off sg h m : -1440 < sg * (60 * h + m) < 1440 -> zone_of tz (Off sg h m) (Some (Fixed (sg * (60 * h + m)))).
(** a day of the proleptic Gregorian calendar and a time of day *)
Definition real_time (c : civil) : Prop :=
  1 <= cy c <= 9999 /\ 1 <= cmo c <= 12 /\ 1 <= cd c <= (match cmo c with 2 => if ((cy c mod 4 =? 0) && negb (cy c mod 100 =? 0)) || (cy c mod 400 =? 0) then 29 else 28 | 4 | 6 | 9 | 11 => 30 | _ => 31 end) /\
  0 <= ch c <= 23 /\ 0 <= cmi c <= 59 /\ 0 <= cs c <= 59.
