(** What a run of a runbook should do. *)
From Coq Require Import String Ascii.
From stdpp Require Import gmap list strings numbers relations.
From Verif Require Import PgModel PgSpec GoBase GoStrings GoUtf8 ShModel ShSpec DemoModel DemoSpec ParserModel
  ParserSpec SchedModel SchedSpec RunnerModel RunnerSpec EffectsModel.
Local Open Scope Z_scope.

(** The deeds of a task, and what a target printed, among everything that happened. *)
Definition deeds_by (t : string) (E : list world_effect) : list deed :=
  omap (λ e, match e with Does _ t' d => if decide (t' = t) then Some d else None | _ => None end) E.
Definition printed_by (q : string) (E : list world_effect) : list string :=
  omap (λ e, match e with Does q' _ (Prints s) => if decide (q' = q) then Some s else None | _ => None end) E.

(** [r] is [environ] filtered by [e], with the variables of Set (C30). *)
Definition applied (e : env) (environ r : list string) : Prop :=
  ∃ kept keys, filtered e environ kept ∧ lacking e environ keys ∧
    r = kept ++ ((λ k, k +:+ "=" +:+ default "" (e_set e !! k)) <$> keys).

(** The text of a demo target after some tasks, for any text. *)
Definition text_after (l : list demo_task) (s : string) : string :=
  if decide (Rev ∈ l ∨ Rot13 ∈ l) then text (effect l (runes_of s)) else s.

(** [to_do h x before c l]: a task with settings [c] is to do [l] on the target [x],
    which has handled the demo tasks [before]. *)
Inductive to_do (h : host) : target → list demo_task → task_config → list deed → Prop :=
  | to_do_sql s before sql : to_do h (PgTarget s) before (PgExec sql) [Sends sql]
  | to_do_command n te before args e environ mid :
      applied te (h_environ h) mid → applied e mid environ → args ≠ [] →
      to_do h (ShTarget n te) before (ShExec args e) [Runs args (h_basedir h) environ]
  | to_do_echo s before :
      to_do h (DemoTgt s) before (DemoConfig Echo) [Prints (text_after before s +:+ String (of_byte 10) "")]
  | to_do_sleep s before n : to_do h (DemoTgt s) before (DemoConfig (DemoModel.Sleep n)) [Pauses (n * 1000000000)]
  | to_do_rev s before : to_do h (DemoTgt s) before (DemoConfig Rev) []
  | to_do_rot13 s before : to_do h (DemoTgt s) before (DemoConfig Rot13) []
  | to_do_fail s before : to_do h (DemoTgt s) before (DemoConfig Fail) [].
(** The message comes first, if there is one. *)
Definition said (msg : string) : list deed := if decide (msg = "") then [] else [Says msg].
(** The demo tasks among some tasks. *)
Definition demos (b : book) (l : list string) : list demo_task :=
  omap (λ t, match b_config <$> bk_tasks b !! t with Some (DemoConfig x) => Some x | _ => None end) l.

(** The iteration orders are those of the maps. *)
Definition ok_host (b : book) (h : host) : Prop :=
  (∀ q n e, bk_targets b !! q = Some (ShTarget n e) → range_of (e_set e) (h_order_target h q)) ∧
  (∀ t k args e, bk_tasks b !! t = Some k → b_config k = ShExec args e → range_of (e_set e) (h_order_task h t)).
(** No more seconds than fit a time.Duration (292 years). *)
Definition short_sleeps (b : book) : Prop :=
  ∀ t k n, bk_tasks b !! t = Some k → b_config k = DemoConfig (DemoModel.Sleep n) → n ≤ 9223372036.
Definition tries_to_connect (b : book) : Prop :=
  ∀ q s, bk_targets b !! q = Some (PgTarget s) → 0 ≤ pgs_retries s.

(** The tasks of a book, as far as their order goes. *)
Definition order_of_book (b : book) : gmap string task :=
  (λ k, Task (b_target k) (b_after k)) <$> bk_tasks b.
(** The tasks of the target [q], each after the one before it in the list. *)
Definition in_sequence (b : book) (q : string) (l : list string) : Prop :=
  (∀ t, t ∈ l ↔ ∃ k, bk_tasks b !! t = Some k ∧ b_target k = q) ∧
  ∀ i j s t, l !! i = Some s → l !! j = Some t → (i < j)%nat →
    tc (after (order_of_book b)) t s.

(** What the echo tasks in a list print, for any text. *)
Definition echo_texts (l : list demo_task) (s : string) : list string :=
  omap (λ i, match l !! i with
             | Some Echo => Some (text_after (take i l) s +:+ String (of_byte 10) "")
             | _ => None
             end) (seq 0 (length l)).

(** [c] is how a pg target with settings [s] connects, [e] being what libpq's
    environment variables say: every setting given wins, and the SSL mode given (or
    verify-full, if there is none but a password) decides what may be agreed with
    the server. *)
Definition as_configured (s : pg_settings) (e c : config) : Prop :=
  c_host c = (if decide (pgs_host s = "") then c_host e else pgs_host s) ∧
  c_port c = (if decide (pgs_port s = 0) then c_port e else pgs_port s) ∧
  c_user c = (if decide (pgs_username s = "") then c_user e else pgs_username s) ∧
  c_password c = (if decide (pgs_password s = "") then c_password e else pgs_password s) ∧
  c_database c = (if decide (pgs_database s = "") then c_database e else pgs_database s) ∧
  (pgs_sslmode s ≠ "" → allowed (c_host c) (pgs_sslmode s) (channel_of <$> tries c)) ∧
  (pgs_sslmode s = "" → c_password c ≠ "" → allowed (c_host c) "verify-full" (channel_of <$> tries c)).

(** Nothing around the run goes wrong: libpq's variables can be read, every pg target
    has an SSL mode there is, and gets its connection (C50: what counts is the last
    attempt), every statement and command succeeds, and no task is there to fail. *)
Definition all_well (b : book) (h : host) : Prop :=
  h_libpq h ≠ None ∧
  (∀ q s, bk_targets b !! q = Some (PgTarget s) → 0 ≤ pgs_retries s ∧ h_connects h q (pgs_retries s) = true ∧
     (pgs_sslmode s = "" ∨ ∃ host l, allowed host (pgs_sslmode s) l)) ∧
  (∀ t, h_result h t = None) ∧
  (∀ t k, bk_tasks b !! t = Some k → b_config k ≠ DemoConfig Fail).

(** A task does what it should and the outside world agrees; [failed_with]: it does not, with that error. *)
Definition went_well (h : host) (t : string) (k : book_task) : Prop :=
  match b_config k with DemoConfig x => x ≠ Fail | _ => h_result h t = None end.
Definition failed_with (h : host) (t : string) (k : book_task) (e : string) : Prop :=
  match b_config k with DemoConfig x => x = Fail ∧ e = "fail task executed" | _ => h_result h t = Some e end.
