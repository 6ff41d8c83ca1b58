(** JSON values, and how encoding/json (Go 1.11, decode.go and fold.go) stores them in
    strings, numbers, slices, maps and structs with DisallowUnknownFields.

    Jsonnet's output, which is all the program decodes, is always valid JSON, so a
    document is a tree here and reading its text is not modelled.  An error is
    remembered by the decoder and returned at the end; the settings are then
    dropped, so an error is [None] at once. *)
From Coq Require Import String Ascii.
From stdpp Require Import gmap list strings numbers.
From Verif Require Import GoBase GoStrings GoUtf8.
Local Open Scope Z_scope.

(** A number is kept as its text.  Fields are in the order of the text. *)
Inductive json :=
  | JNull | JBool (b : bool) | JNum (text : string) | JStr (s : string)
  | JArr (l : list json) | JObj (fields : list (string * json)).

(** strconv.ParseUint(s, 10, 64) without its bound. *)
Fixpoint decimal (acc : Z) (s : string) : option Z :=
  match s with
  | "" => Some acc
  | String c s =>
      if bool_decide (48 ≤ byte_of c ≤ 57) then decimal (10 * acc + (byte_of c - 48)) s else None
  end.
Definition unsigned (s : string) : option Z := if decide (s = "") then None else decimal 0 s.
(** strconv.ParseInt(s, 10, 64) without its bound.  (It also accepts a leading "+",
    which no JSON number has.) *)
Definition signed (s : string) : option Z :=
  match s with
  | String c r => if decide (c = "-"%char) then Z.opp <$> unsigned r else unsigned s
  | "" => None
  end.

(** literalStore: null changes nothing (decode.go: "otherwise, ignore null for
    primitives/string"). *)
Definition into_string (cur : string) (v : json) : option string :=
  match v with JNull => Some cur | JStr s => Some s | _ => None end.
(** An int: ParseInt to 64 bits. *)
Definition into_int (cur : Z) (v : json) : option Z :=
  match v with
  | JNull => Some cur
  | JNum t => n ← signed t; if bool_decide (- 2 ^ 63 ≤ n < 2 ^ 63) then Some n else None
  | _ => None
  end.
(** A uint16: ParseUint to 64 bits, then OverflowUint. *)
Definition into_uint16 (cur : Z) (v : json) : option Z :=
  match v with
  | JNull => Some cur
  | JNum t => n ← unsigned t; if bool_decide (n < 2 ^ 16) then Some n else None
  | _ => None
  end.
(** decoder.array into a []string: elements are stored over the ones that are there.
    (Memory beyond the length, reused by encoding/json after a shorter array, counts
    as empty; that needs three spellings of one name in an object.) *)
Fixpoint into_elements (cur : list string) (l : list json) : option (list string) :=
  match l with
  | [] => Some []
  | v :: l => x ← into_string (default "" (head cur)) v; xs ← into_elements (tail cur) l; Some (x :: xs)
  end.
Definition into_strings (cur : list string) (v : json) : option (list string) :=
  match v with JNull => Some [] | JArr l => into_elements cur l | _ => None end.
(** decoder.object into a map: every value is stored in a new element. *)
Fixpoint into_entries {A} (dec : json → option A) (cur : gmap string A) (l : list (string * json)) : option (gmap string A) :=
  match l with
  | [] => Some cur
  | (k, v) :: l => x ← dec v; into_entries dec (<[k := x]> cur) l
  end.
Definition into_map {A} (dec : json → option A) (cur : gmap string A) (v : json) : option (gmap string A) :=
  match v with JNull => Some ∅ | JObj l => into_entries dec cur l | _ => None end.
(** A new pointer to a struct: null leaves it nil. *)
Definition into_pointer {A} (dec : A → json → option A) (zero : A) (v : json) : option (option A) :=
  match v with JNull => Some None | v => Some <$> dec zero v end.
(** json.RawMessage keeps the value, null included. *)
Definition into_raw (_ : option json) (v : json) : option (option json) := Some (Some v).

(** fold.go: equalFoldRight.  [s] is the name of a field, [t] the key.  The two other
    comparisons (for names without k and s) agree with it on such names. *)
Definition caseless (c : ascii) : Z := Z.land (byte_of c) 223.
Fixpoint equal_fold (s t : string) : bool :=
  match s with
  | "" => bool_decide (t = "")
  | String sb s =>
      match t with
      | "" => false
      | String tb t =>
          if bool_decide (byte_of tb < 128) then
            (bool_decide (sb = tb) || (bool_decide (65 ≤ caseless sb ≤ 90) && bool_decide (caseless sb = caseless tb)))
            && equal_fold s t
          else if bool_decide (caseless sb = 83) then   (* s or S: U+017F *)
            match t with
            | String t1 t => bool_decide (byte_of tb = 197 ∧ byte_of t1 = 191) && equal_fold s t
            | "" => false
            end
          else if bool_decide (caseless sb = 75) then   (* k or K: U+212A *)
            match t with
            | String t1 (String t2 t) =>
                bool_decide (byte_of tb = 226 ∧ byte_of t1 = 132 ∧ byte_of t2 = 170) && equal_fold s t
            | _ => false
            end
          else false
      end
  end.
(** An exported field of a struct [S], and what is stored in it. *)
Record fld (S : Type) := Fld {
  fl_type : Type; fl_get : S → fl_type; fl_put : S → fl_type → S; fl_into : fl_type → json → option fl_type }.
Global Arguments Fld {S fl_type}. Global Arguments fl_type {S}. Global Arguments fl_get {S}.
Global Arguments fl_put {S}. Global Arguments fl_into {S}.
Definition store {S} (f : fld S) (s : S) (v : json) : option S := fl_put f s <$> fl_into f (fl_get f s) v.
(** decoder.object: the field for a key: the one so named, else the first whose name
    differs in case only. *)
Definition find_field {A} (fields : list (string * A)) (key : string) : option A :=
  match list_find (λ f, f.1 = key) fields with
  | Some (_, f) => Some f.2
  | None => match list_find (λ f, equal_fold f.1 key = true) fields with Some (_, f) => Some f.2 | None => None end
  end.
(** decoder.object into a struct. *)
Fixpoint into_fields {S} (fields : list (string * fld S)) (cur : S) (l : list (string * json)) : option S :=
  match l with
  | [] => Some cur
  | (k, v) :: l => f ← find_field fields k; cur ← store f cur v; into_fields fields cur l
  end.
Definition into_struct {S} (fields : list (string * fld S)) (cur : S) (v : json) : option S :=
  match v with JNull => Some cur | JObj l => into_fields fields cur l | _ => None end.
