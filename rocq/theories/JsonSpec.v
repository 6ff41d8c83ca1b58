(** What a runbook in JSON says (C83-C85), without mentioning a decoder. *)
From Coq Require Import String Ascii.
From stdpp Require Import gmap list strings numbers.
From Verif Require Import GoBase GoStrings GoUtf8 ShModel DemoModel JsonModel ParserModel ParserSpec.
Local Open Scope Z_scope.

(** * Keys *)

(** U+017F and U+212A in UTF-8. *)
Definition long_s : string := String (of_byte 197) (String (of_byte 191) "").
Definition kelvin_sign : string := String (of_byte 226) (String (of_byte 132) (String (of_byte 170) "")).
(** [same_name name key]: the same but for upper and lower case, where the long s and
    the Kelvin sign count as s and k. *)
Inductive same_name : string → string → Prop :=
  | sn_nil : same_name "" ""
  | sn_char c s t : byte_of c < 128 → same_name s t → same_name (String c s) (String c t)
  | sn_lower c d s t : 65 ≤ byte_of c ≤ 90 → byte_of d = byte_of c + 32 → same_name s t → same_name (String c s) (String d t)
  | sn_upper c d s t : 97 ≤ byte_of c ≤ 122 → byte_of d = byte_of c - 32 → same_name s t → same_name (String c s) (String d t)
  | sn_long_s c s t : c ∈ ["s"%char; "S"%char] → same_name s t → same_name (String c s) (long_s +:+ t)
  | sn_kelvin c s t : c ∈ ["k"%char; "K"%char] → same_name s t → same_name (String c s) (kelvin_sign +:+ t).
(** The object gives the setting a value. *)
Definition gives (v : json) (name : string) (x : json) : Prop :=
  ∃ l k, v = JObj l ∧ (k, x) ∈ l ∧ same_name name k.
(** An object with none but these settings; or null, which says nothing. *)
Definition only_settings (names : list string) (v : json) : Prop :=
  v = JNull ∨ ∃ l, v = JObj l ∧ ∀ k x, (k, x) ∈ l → ∃ n, n ∈ names ∧ same_name n k.
(** No setting is given twice (in two spellings). *)
Definition all_settings : list string :=
  ["Targets"; "Tasks"; "Class"; "Config"; "After"; "Target"; "Message";
   "Concurrency"; "Host"; "Port"; "sslmode"; "Username"; "Password"; "Database"; "connect_retries";
   "Env"; "Allow"; "Deny"; "Set"; "String"; "sql"; "Args"; "Seconds"].
Definition given_once (v : json) : Prop :=
  ∀ l n i j k k' x x', v = JObj l → n ∈ all_settings →
    l !! i = Some (k, x) → l !! j = Some (k', x') → same_name n k → same_name n k' → i = j.

(** * Values *)
Inductive reads_string : json → string → Prop :=
  | reads_str s : reads_string (JStr s) s.
Inductive decimal_text : string → Z → Prop :=
  | decimal_one c d : byte_of c = 48 + d → 0 ≤ d ≤ 9 → decimal_text (String c "") d
  | decimal_more s n c d : decimal_text s n → byte_of c = 48 + d → 0 ≤ d ≤ 9 → decimal_text (s +:+ String c "") (10 * n + d).
Inductive reads_int : json → Z → Prop :=
  | reads_pos t n : decimal_text t n → n < 2 ^ 63 → reads_int (JNum t) n
  | reads_neg t n : decimal_text t n → n ≤ 2 ^ 63 → reads_int (JNum ("-" +:+ t)) (- n).
Inductive reads_port : json → Z → Prop :=
  | reads_uint16 t n : decimal_text t n → n ≤ 65535 → reads_port (JNum t) n.
(** In lists and maps null counts as the empty string. *)
Definition reads_element (v : json) (s : string) : Prop := reads_string v s ∨ (v = JNull ∧ s = "").
Inductive reads_strings : json → list string → Prop :=
  | reads_list l x : Forall2 reads_element l x → reads_strings (JArr l) x.
(** A map; of several entries with one key the last counts. *)
Definition last_entry (l : list (string * json)) (k : string) (v : json) : Prop :=
  ∃ l1 l2, l = l1 ++ (k, v) :: l2 ∧ k ∉ l2.*1.
Definition reads_map {A} (reads : json → A → Prop) (v : json) (m : gmap string A) : Prop :=
  ∃ l, v = JObj l ∧ (∀ k x, (k, x) ∈ l → ∃ a, reads x a) ∧
    ∀ k a, m !! k = Some a ↔ ∃ x, last_entry l k x ∧ reads x a.
(** The value of a setting: as given, otherwise (or if null is given) the default. *)
Definition setting {A} (reads : json → A → Prop) (v : json) (name : string) (dflt x : A) : Prop :=
  (∃ y, gives v name y ∧ y ≠ JNull ∧ reads y x) ∨ ((∀ y, gives v name y → y = JNull) ∧ x = dflt).

(** * Settings *)
Definition env_says (v : json) (e : env) : Prop :=
  only_settings ["Allow"; "Deny"; "Set"] v ∧
  setting reads_strings v "Allow" [] (e_allow e) ∧ setting reads_strings v "Deny" [] (e_deny e) ∧
  setting (reads_map reads_element) v "Set" ∅ (e_set e).
(** [target_says class v t]: the Config [v] of a target of that class. *)
Definition target_says (class : string) (v : json) (t : target) : Prop :=
  match t with
  | PgTarget s => class = "pg" ∧
      only_settings ["Concurrency"; "Host"; "Port"; "sslmode"; "Username"; "Password"; "Database"; "connect_retries"] v ∧
      setting reads_int v "Concurrency" 1 (pgs_concurrency s) ∧ setting reads_string v "Host" "" (pgs_host s) ∧
      setting reads_port v "Port" 0 (pgs_port s) ∧ setting reads_string v "sslmode" "" (pgs_sslmode s) ∧
      setting reads_string v "Username" "" (pgs_username s) ∧ setting reads_string v "Password" "" (pgs_password s) ∧
      setting reads_string v "Database" "" (pgs_database s) ∧ setting reads_int v "connect_retries" 0 (pgs_retries s)
  | ShTarget c e => class = "sh" ∧ only_settings ["Concurrency"; "Env"] v ∧
      setting reads_int v "Concurrency" 1 c ∧ setting env_says v "Env" (Env [] [] ∅) e
  | DemoTgt s => class = "demo" ∧ only_settings ["String"] v ∧ setting reads_string v "String" "" s
  end.
(** [task_says class kind v c]: the Config of a task of that kind. *)
Definition task_says (class kind : string) (v : json) (c : task_config) : Prop :=
  match c with
  | PgExec sql => class = "pg" ∧ kind ∈ [""; "exec"] ∧ only_settings ["sql"] v ∧ setting reads_string v "sql" "" sql
  | ShExec args e => class = "sh" ∧ kind ∈ [""; "exec"] ∧ only_settings ["Args"; "Env"] v ∧
      setting reads_strings v "Args" [] args ∧ setting env_says v "Env" (Env [] [] ∅) e
  | DemoConfig (Sleep n) => class = "demo" ∧ kind = "sleep" ∧ only_settings ["Seconds"] v ∧ setting reads_int v "Seconds" 0 n
  | DemoConfig x => class = "demo" ∧ kind = config_kind (DemoConfig x) ∧ only_settings [] v
  end.

(** * The document *)
(** The entry of a target: its class and Config.  The entry null says nothing, and
    no Config is like a Config of null. *)
Definition target_entry (v : json) (class : string) (config : json) : Prop :=
  only_settings ["Class"; "Config"] v ∧
  setting reads_string v "Class" "" class ∧ setting eq v "Config" JNull config.
Definition task_entry (v : json) (after : list string) (target message : string) (config : json) : Prop :=
  only_settings ["After"; "Target"; "Message"; "Config"] v ∧
  setting reads_strings v "After" [] after ∧ setting reads_string v "Target" "" target ∧
  setting reads_string v "Message" "" message ∧ setting eq v "Config" JNull config.
Definition target_json (v : json) (t : target) : Prop :=
  ∃ class config, v ≠ JNull ∧ target_entry v class config ∧ target_says class config t ∧ 1 ≤ concurrency_limit t.
Definition task_json (targets : gmap string target) (v : json) (b : book_task) : Prop :=
  ∃ target kind t config c, v ≠ JNull ∧ task_entry v (b_after b) target (b_message b) config ∧
    names_target target (b_target b) kind ∧ targets !! b_target b = Some t ∧
    task_says (target_class t) kind config c ∧ adjusted c (b_config b) ∧ good_config (b_config b).
(** What the whole document says. *)
Definition document_says (v : json) (b : book) : Prop :=
  only_settings ["Targets"; "Tasks"] v ∧
  setting (reads_map target_json) v "Targets" ∅ (bk_targets b) ∧
  setting (reads_map (task_json (bk_targets b))) v "Tasks" ∅ (bk_tasks b).
(** No setting, target or task is given twice anywhere. *)
Definition entry_given_once (v : json) : Prop :=
  given_once v ∧ ∀ c, gives v "Config" c → given_once c ∧ ∀ e, gives c "Env" e → given_once e.
Definition document_given_once (v : json) : Prop :=
  given_once v ∧ ∀ m l, gives v "Targets" m ∨ gives v "Tasks" m → m = JObj l →
    NoDup l.*1 ∧ ∀ k x, (k, x) ∈ l → entry_given_once x.
(** An order in which a map can be ranged over: of its keys. *)
Definition order_of (v : json) (name : string) (order : list string) : Prop :=
  (∀ l, gives v name (JObj l) → order ≡ₚ l.*1) ∧ ((∀ l, ¬ gives v name (JObj l)) → order = []).

(** * Consequences *)
(** An entry of the map of targets or of tasks. *)
Definition entry_of (v : json) (name id : string) (x : json) : Prop := ∃ l, gives v name (JObj l) ∧ (id, x) ∈ l.
(** The settings of a Config. *)
Definition target_names (t : target) : list string :=
  match t with
  | PgTarget _ => ["Concurrency"; "Host"; "Port"; "sslmode"; "Username"; "Password"; "Database"; "connect_retries"]
  | ShTarget _ _ => ["Concurrency"; "Env"]
  | DemoTgt _ => ["String"]
  end.
Definition task_names (c : task_config) : list string :=
  match c with
  | PgExec _ => ["sql"] | ShExec _ _ => ["Args"; "Env"] | DemoConfig (Sleep _) => ["Seconds"] | DemoConfig _ => []
  end.
Definition only_known (names config_names : list string) (x : json) : Prop :=
  only_settings names x ∧ ∀ c, gives x "Config" c → only_settings config_names c ∧
    ∀ e, gives c "Env" e → only_settings ["Allow"; "Deny"; "Set"] e.
(** A value that is given and not null is the value read. *)
Definition used {A} (reads : json → A → Prop) (v : json) (name : string) (x : A) : Prop :=
  ∀ y, gives v name y → y ≠ JNull → reads y x.
Definition env_used (v : json) (e : env) : Prop :=
  used reads_strings v "Allow" (e_allow e) ∧ used reads_strings v "Deny" (e_deny e) ∧ used (reads_map reads_element) v "Set" (e_set e).
Definition target_used (v : json) (t : target) : Prop :=
  match t with
  | PgTarget s =>
      used reads_int v "Concurrency" (pgs_concurrency s) ∧ used reads_string v "Host" (pgs_host s) ∧
      used reads_port v "Port" (pgs_port s) ∧ used reads_string v "sslmode" (pgs_sslmode s) ∧
      used reads_string v "Username" (pgs_username s) ∧ used reads_string v "Password" (pgs_password s) ∧
      used reads_string v "Database" (pgs_database s) ∧ used reads_int v "connect_retries" (pgs_retries s)
  | ShTarget c e => used reads_int v "Concurrency" c ∧ used env_used v "Env" e
  | DemoTgt s => used reads_string v "String" s
  end.
(** A sleep that is too short is adjusted. *)
Definition reads_sleep (v : json) (n : Z) : Prop := ∃ m, reads_int v m ∧ n = Z.max 1 m.
Definition task_used (v : json) (c : task_config) : Prop :=
  match c with
  | PgExec sql => used reads_string v "sql" sql
  | ShExec args e => used reads_strings v "Args" args ∧ used env_used v "Env" e
  | DemoConfig (Sleep n) => used reads_sleep v "Seconds" n
  | DemoConfig _ => True
  end.
