(** Bytes that make the parsers for foreign keys, triggers and indexes fail. *)
From Coq Require Import String Ascii.
From stdpp Require Import list list_numbers strings numbers.
From Verif Require Import GoStrings GoStringsProofs GoUtf8 DdlModel MachineModel MachineTables ParseModel ParseGrammar ParseSpec.
From Verif Require Import GoUtf8Proofs ParseText ParseCheck ParseEquiv.
Local Open Scope Z_scope.

(** The bytes that occur in keywords, names and white space. *)
Definition word_byte (c : ascii) : Prop := name_byte c ∨ space_byte c.
(** Also parentheses and commas. *)
Definition plain_byte (c : ascii) : Prop := word_byte c ∨ c = "("%char ∨ c = ")"%char ∨ c = ","%char.

Definition word_code (z : Z) : bool :=
  bool_decide (65 ≤ z ≤ 90) || bool_decide (97 ≤ z ≤ 122) || bool_decide (48 ≤ z ≤ 57) || bool_decide (z = 95)
  || bool_decide (9 ≤ z ≤ 13) || bool_decide (z = 32).
Definition plain_code (z : Z) : bool :=
  word_code z || bool_decide (z = 40) || bool_decide (z = 41) || bool_decide (z = 44).
Lemma word_code_spec c : word_code (byte_of c) = true ↔ word_byte c.
Proof.
  unfold word_code, word_byte, name_byte, letter_byte, space_byte. rewrite !orb_true_iff, !bool_decide_eq_true. tauto.
Qed.
Lemma plain_code_spec c : plain_code (byte_of c) = true ↔ plain_byte c.
Proof.
  unfold plain_code, plain_byte. rewrite !orb_true_iff, !bool_decide_eq_true, word_code_spec.
  assert (byte_of c = 40 ↔ c = "("%char) by (split; [intros H; by apply byte_of_inj|by intros ->]).
  assert (byte_of c = 41 ↔ c = ")"%char) by (split; [intros H'; by apply byte_of_inj|by intros ->]).
  assert (byte_of c = 44 ↔ c = ","%char) by (split; [intros H'; by apply byte_of_inj|by intros ->]).
  tauto.
Qed.

(** From the states [Q] the bytes that are not [good] lead to the error state; the
    good ones stay in [Q] unless they are [stop]. *)
Definition codes : list Z := seqZ 0 256.
Definition stuck (m : machine) (stop good : Z → bool) (Q : list N) : bool :=
  forallb (λ q, forallb (λ c,
    stop c || match step m q c with
              | None => true
              | Some (_, q') => good c && existsb (N.eqb q') Q
              end) codes) Q.
Lemma byte_codes c : byte_of c ∈ codes.
Proof. apply elem_of_seqZ. pose proof (byte_of_range c). lia. Qed.
Lemma stuck_run {M} m (act : semantics M) stop good Q s : stuck m stop good Q = true →
  ∀ q p mem a, q ∈ Q → run m act q p mem s = Parsed a →
  ∀ x c y, s = x +:+ String c y → (∀ d, has_byte d x → stop (byte_of d) = false) → stop (byte_of c) = false →
  good (byte_of c) = true.
Proof.
  intros H. induction s as [|d s IH]; intros q p mem a Hq Hr x c y Hs Hx Hc; [by destruct x|].
  unfold stuck in H. rewrite forallb_forall in H. pose proof (H q) as Hqc. rewrite <-elem_of_list_In in Hqc.
  specialize (Hqc Hq). rewrite forallb_forall in Hqc. specialize (Hqc (byte_of d)).
  rewrite <-elem_of_list_In in Hqc. specialize (Hqc (byte_codes d)). cbn [run] in Hr.
  destruct (step m q (byte_of d)) as [[acts q']|] eqn:E; [|done].
  destruct (do_all act acts (Some d) p mem) as [mem'|]; [|done].
  destruct x as [|e x].
  - injection Hs as [= -> ->]. rewrite Hc in Hqc. cbn in Hqc. by apply andb_true_iff in Hqc as [? _].
  - rewrite app_str_cons in Hs. injection Hs as [= -> ->].
    rewrite (Hx e) in Hqc by (apply has_byte_cons; by left). cbn in Hqc.
    apply andb_true_iff in Hqc as [_ Hq']. apply existsb_exists in Hq' as (q'' & Hin & ->%N.eqb_eq).
    apply elem_of_list_In in Hin. eapply IH; [exact Hin|exact Hr|done| |done].
    intros f Hf. apply Hx. apply has_byte_cons. by right.
Qed.
(** States reachable without a [stop] byte. *)
Fixpoint reach (m : machine) (stop : Z → bool) (n : nat) (seen todo : list N) : list N :=
  match n, todo with
  | O, _ | _, [] => seen
  | S n, q :: todo =>
      if existsb (N.eqb q) seen then reach m stop n seen todo
      else reach m stop n (q :: seen)
        (omap (λ c, if stop c then None else snd <$> step m q c) codes ++ todo)
  end.
Definition fk_states : list N := Eval vm_compute in reach foreign_key_machine (λ _, false) (N.to_nat 200000) [] [1%N].
Definition tg_states : list N := Eval vm_compute in reach trigger_machine (λ _, false) (N.to_nat 200000) [] [1%N].
Definition ix_states : list N := Eval vm_compute in reach index_machine (λ c, bool_decide (c = 40)) (N.to_nat 200000) [] [1%N].
Lemma fk_stuck : stuck foreign_key_machine (λ _, false) plain_code fk_states = true.
Proof. by vm_compute. Qed.
Lemma tg_stuck : stuck trigger_machine (λ _, false) plain_code tg_states = true.
Proof. by vm_compute. Qed.
Lemma ix_stuck : stuck index_machine (λ c, bool_decide (c = 40)) word_code ix_states = true.
Proof. by vm_compute. Qed.

Lemma result_parsed {A} (o : outcome (string * A)) a : result o = Parsed a → ∃ b, o = Parsed (b, a).
Proof. destruct o as [[b x]|cs|]; cbn; [|done|done]. intros [= ->]. by exists b. Qed.
Lemma foreign_key_bytes s fk : parse_foreign_key s = Parsed fk → ∀ c, has_byte c s → plain_byte c.
Proof.
  intros [b H]%result_parsed c (x & y & Hs). apply plain_code_spec.
  by eapply (stuck_run _ _ _ _ _ s fk_stuck 1%N); [by vm_compute; repeat constructor|exact H|exact Hs|..].
Qed.
Lemma trigger_bytes s t : parse_trigger s = Parsed t → ∀ c, has_byte c s → plain_byte c.
Proof.
  intros [b H]%result_parsed c (x & y & Hs). apply plain_code_spec.
  by eapply (stuck_run _ _ _ _ _ s tg_stuck 1%N); [by vm_compute; repeat constructor|exact H|exact Hs|..].
Qed.
Lemma index_bytes s i : parse_index s = Parsed i →
  ∀ x c y, s = x +:+ String c y → ¬ has_byte "(" x → c ≠ "("%char → word_byte c.
Proof.
  intros [b H]%result_parsed x c y Hs Hx Hc. apply word_code_spec.
  eapply (stuck_run _ _ _ _ _ s ix_stuck 1%N); [by vm_compute; repeat constructor|exact H|exact Hs|..].
  - intros d Hd. apply bool_decide_false. intros E. apply Hx. assert (d = "("%char) as <-; [by apply byte_of_inj|done].
  - apply bool_decide_false. intros E. apply Hc. by apply byte_of_inj.
Qed.
