(** Dates as text: asyncz/utils.py:28-33, 108-171 to_datetime, of a text (ASCII digits).
    [T] is the type of time zones passed by the caller; localize (430-435) attaches the zone. *)
From Verif Require Import Prelude Text Calendar CronParse.
Open Scope Z_scope.

Inductive zone (T : Type) := Fixed (minutes : Z) | Named (tz : T).
Arguments Fixed {T}. Arguments Named {T}.
(** a datetime: wall clock, microseconds, and the zone (None: naive) *)
Record datetime (T : Type) := MkDt { dt_civil : civil; dt_us : Z; dt_zone : option (zone T) }.
Arguments MkDt {T}. Arguments dt_civil {T}. Arguments dt_us {T}. Arguments dt_zone {T}.

(** \d{lo,hi}, where what follows in the pattern is not a digit *)
Definition num (lo hi : nat) (s : string) : option (Z * string) :=
  let (d, r) := span is_digit s in if Nat.leb lo (String.length d) && Nat.leb (String.length d) hi then Some (dec d, r) else None.
Definition char (c : ascii) (s : string) : option string := match s with String a s' => if Ascii.eqb a c then Some s' else None | EmptyString => None end.
Definition bind {A B} (o : option A) (k : A -> option B) : option B := match o with Some a => k a | None => None end.
Notation "x <- e ;; k" := (bind e (fun x => k)) (at level 60, right associativity).
Notation "' p <- e ;; k" := (bind e (fun x => let p := x in k)) (at level 60, p pattern, right associativity).
(** $ : the end, or a newline before the end *)
Definition eol (s : string) : bool := String.eqb s "" || String.eqb s (String (ascii_of_nat 10) "").
(** (?P<timezone>Z|[+-]\d\d:\d\d)?$ : sign, hours and minutes *)
Inductive tzname := NoTz | Zulu | Off (sign : Z) (hours minutes : Z).
Definition match_zone (s : string) : option tzname :=
  if eol s then Some NoTz
  else match s with
  | String a r =>
      if Ascii.eqb a "Z" then if eol r then Some Zulu else None
      else if Ascii.eqb a "+" || Ascii.eqb a "-" then
        '(h, r1) <- num 2 2 r ;; r2 <- char ":" r1 ;; '(m, r3) <- num 2 2 r2 ;;
        if eol r3 then Some (Off (if Ascii.eqb a "+" then 1 else -1) h m) else None
      else None
  | EmptyString => None
  end.
(** DATE_REGEX.match: the fields (a missing one is 0) and the zone *)
Definition date_match (s : string) : option (civil * Z * tzname) :=
  '(y, s1) <- num 4 4 s ;; s2 <- char "-" s1 ;; '(mo, s3) <- num 1 2 s2 ;; s4 <- char "-" s3 ;; '(d, s5) <- num 1 2 s4 ;;
  if eol s5 then Some (MkCivil y mo d 0 0 0, 0, NoTz)
  else match s5 with
  | String a s6 =>
      if Ascii.eqb a " " || Ascii.eqb a "T" then
        '(h, s7) <- num 1 2 s6 ;; s8 <- char ":" s7 ;; '(mi, s9) <- num 1 2 s8 ;; s10 <- char ":" s9 ;; '(sec, s11) <- num 1 2 s10 ;;
        '(us, s12) <- match char "." s11 with Some f => num 1 6 f | None => Some (0, s11) end ;;
        z <- match_zone s12 ;; Some (MkCivil y mo d h mi sec, us, z)
      else None
  | EmptyString => None
  end.
(** datetime(...): years 1 to 9999, real days, h:m:s in range *)
Definition real (c : civil) : bool := (1 <=? cy c) && (cy c <=? 9999) && valid c.
(** utils.py:126-171, of a text and the zone argument *)
Definition to_datetime {T} (s : string) (tz : option T) (require_tz : bool) : result (option (datetime T)) :=
  if String.eqb s "" then Ok None
  else match date_match s with
  | None => Err OtherError
  | Some (c, us, z) =>
      let zone := match z with
        | NoTz => Ok (option_map Named tz)
        | Zulu => Ok (Some (Fixed 0))
        | Off sg h m => let o := sg * (60 * h + m) in if (-1440 <? o) && (o <? 1440) then Ok (Some (Fixed o)) else Err ValueError
        end in
      match zone with
      | Err e => Err e
      | Ok zo => if real c then match zo with None => if require_tz then Err OtherError else Ok (Some (MkDt c us None)) | Some _ => Ok (Some (MkDt c us zo)) end else Err ValueError
      end
  end.
