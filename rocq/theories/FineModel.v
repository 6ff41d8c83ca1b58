(** What a run does to the world when targets act at the same time: as EffectsModel, but
    what Handle does is spread over the time between its call and its return. *)
From Coq Require Import String Ascii.
From stdpp Require Import gmap list strings numbers fin_maps functions.
From Verif Require Import GoBase GoStrings ParserModel RunnerModel EffectsModel.
Local Open Scope Z_scope.

(** internal/runbook/runner.go:120-186: the goroutine an event belongs to.  Start of a target is called by run, but
    before there are other goroutines of targets to act, and nothing else of the
    target happens before. *)
Definition event_target (e : event) : option string :=
  match e with
  | EvStart q | EvStartFail q _ | EvHandle q _ | EvHandled q _ _ | EvStop q => Some q
  | EvReturn _ => None
  end.
(** internal/runbook/runner.go:174-177: a call of Handle, after the message. *)
Definition begins (e : event) : option string := match e with EvHandle q _ => Some q | _ => None end.
(** internal/runbook/runner.go:164-186: [E] is what has happened after the events [tr];
    [m]: what the targets keep; [p]: what the targets have still to do before Handle
    returns, the message included.  A target does nothing else before that.  Connecting
    and closing (pg/pg.go:79-101) happen at once: no target acts while another connects, and to close is one effect.  After a
    crash nothing happens. *)
Inductive fine (b : book) (h : host) :
    list event → list world_effect → gmap string live → (string → list world_effect) → Prop :=
| fine_init : fine b h [] [] ∅ (λ _, [])
| fine_event tr E m p e m' l :
    fine b h tr E m p → Crash ∉ E → (∀ q, event_target e = Some q → p q = []) → act b h m e = (m', l) →
    fine b h (tr ++ [e])
      (match begins e with Some _ => E | None => E ++ l end) m'
      (match begins e with Some q => <[q := l]> p | None => p end)
| fine_do tr E m p q x l :
    fine b h tr E m p → Crash ∉ E → p q = x :: l → fine b h tr (E ++ [x]) m (<[q := l]> p).
