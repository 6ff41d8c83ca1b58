(** Specification of the process as a whole. *)
From Coq Require Import String Ascii.
From stdpp Require Import gmap list strings numbers.
From Verif Require Import GoStrings CliModel CliSpec ArgsModel ProgModel.
From Verif Require PgModel PgSpec.
Local Open Scope Z_scope.

(** The file a command is told to write. *)
Inductive writes_to : command → string → Prop :=
| writes_inspect c out a b d : out ≠ "" → out ≠ "-" → writes_to (Inspect c out a b d) out
| writes_eval file color out : out ≠ "" → out ≠ "-" → writes_to (BookEval file color out) out
| writes_dot file out auto splines : out ≠ "" → out ≠ "-" → writes_to (BookDot file out auto splines) out
| writes_auto file splines stem e :
    extension file stem e → writes_to (BookDot file "" true splines) (stem +:+ ".dot").
(** The command that runs a runbook, whose tasks may do anything. *)
Definition is_run (c : command) : Prop := ∃ file, c = BookRun file.
(** The command that connects to a server, and with what. *)
Inductive connects : command → connection → Prop :=
| connects_ping c : connects (Ping c) c
| connects_inspect c out x y z : connects (Inspect c out x y z) c.

(** A word of the line ends in [x]. *)
Definition in_line (ws : list string) (x : string) : Prop := ∃ w pre, w ∈ ws ∧ w = pre +:+ x.
(** [text] consists of one line for each message, in order, each as the encoder gives
    it at some time. *)
Definition lines_of (s : setting) (f : string) (ms : list (level * string)) (text : string) : Prop :=
  ∃ lines, text = String.concat "" lines ∧
    Forall2 (λ m line, ∃ w, line = s_line s f w m.1 m.2) ms lines.
(** Everything that is logged in the course of a request. *)
Definition messages (s : setting) (r : request) : list (level * string) :=
  match q_debug r with Some f => [(Info, "logging to: " +:+ f)] | None => [] end ++
  (Info, "pgutil version=" +:+ s_build s) :: (s_chatter s (q_command r)).1 ++ (s_chatter s (q_command r)).2.

(** The connection the options of a line ask for: what they say, and for what they do not
    say what the environment does; there is no option for the password.  Without
    --sslmode a password is only sent to the host it is for. *)
Definition asked_for (c : connection) (env cfg : PgModel.config) : Prop :=
  (host c ≠ "" → PgModel.c_host cfg = host c) ∧ (host c = "" → PgModel.c_host cfg = PgModel.c_host env) ∧
  (port c ≠ 0%Z → PgModel.c_port cfg = port c) ∧ (port c = 0%Z → PgModel.c_port cfg = PgModel.c_port env) ∧
  (username c ≠ "" → PgModel.c_user cfg = username c) ∧ (username c = "" → PgModel.c_user cfg = PgModel.c_user env) ∧
  (dbname c ≠ "" → PgModel.c_database cfg = dbname c) ∧ (dbname c = "" → PgModel.c_database cfg = PgModel.c_database env) ∧
  PgModel.c_password cfg = PgModel.c_password env ∧
  (sslmode c ≠ "" → PgSpec.allowed (PgModel.c_host cfg) (sslmode c) (PgSpec.channel_of <$> PgModel.tries cfg)) ∧
  (sslmode c = "" → PgModel.c_password env ≠ "" →
     PgSpec.allowed (PgModel.c_host cfg) "verify-full" (PgSpec.channel_of <$> PgModel.tries cfg)) ∧
  (sslmode c = "" → PgModel.c_password env = "" → PgModel.tries cfg = PgModel.tries env).
