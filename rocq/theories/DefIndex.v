(** Index definitions as PostgreSQL writes them, read by ParseIndex. *)
From Coq Require Import String Ascii.
From stdpp Require Import list list_numbers strings numbers.
From Verif Require Import GoStrings GoStringsProofs GoUtf8 DdlModel DdlSpec MachineModel MachineTables ParseModel ParseGrammar ParseSpec.
From Verif Require Import GoUtf8Proofs ParseText ParseCheck ParseEquiv ParseCharset ParseFacts DdlProofs DefModel DefSpec DefProofs.
Local Open Scope Z_scope.

Lemma ix_adds c b x : ix_act AddToBuffer (Some c) 0 (b, x) = Some (push c b, x).
Proof. done. Qed.
Notation igo := (go index_machine ix_act).
Notation iwalk := (walk index_machine ix_act).
Lemma app_nil_str (s : string) : "" +:+ s = s. Proof. done. Qed.

Lemma all_bytes_name s : forallb (λ c, name_code (byte_of c)) (list_ascii_of_string s) = true → all_bytes name_byte s.
Proof.
  rewrite forallb_forall. intros H c Hc%has_byte_list. specialize (H c). rewrite <-elem_of_list_In in H. specialize (H Hc).
  unfold name_code, letter_code in H. rewrite !orb_true_iff, !bool_decide_eq_true in H. unfold name_byte, letter_byte. tauto.
Qed.
(** Bytes that only go to the buffer. *)
Definition loops (q q1 : N) (ok : Z → bool) : bool := forallb (λ c, negb (ok c) || goes (step index_machine q c) q1) codes.
Lemma loops_step q q1 ok c : loops q q1 ok = true → ok (byte_of c) = true → step index_machine q (byte_of c) = Some ([AddToBuffer], q1).
Proof.
  unfold loops. rewrite forallb_forall. intros H Hc. specialize (H (byte_of c)). rewrite <-elem_of_list_In in H.
  specialize (H (byte_codes c)). rewrite Hc in H. by apply goes_true.
Qed.
Lemma loops_go q ok s b x t : loops q q ok = true → all_bytes (λ c, ok (byte_of c) = true) s →
  igo q (b, x) (s +:+ t) = igo q (b +:+ s, x) t.
Proof.
  intros Hq. revert b. induction s as [|c s IH]; intros b Hs; [by rewrite app_str_nil_r|].
  rewrite app_str_cons. cbn [go]. rewrite (loops_step q q ok) by (try done; apply Hs, has_byte_cons; by left).
  cbn [do_all ix_act]. rewrite IH by (intros d Hd; apply Hs, has_byte_cons; by right).
  unfold push. by rewrite <-app_str_assoc.
Qed.
Lemma loops_first q q1 ok c s b x : loops q q1 ok = true → ok (byte_of c) = true →
  igo q (b, x) (String c s) = igo q1 (push c b, x) s.
Proof. intros Hq Hc. cbn [go]. by rewrite (loops_step q q1 ok). Qed.

Definition ix_push (k : index_key) (i : index) : index :=
  Index (ix_schema i) (ix_table i) (ix_name i) (ix_primary i) (ix_unique i) (ix_using i) (ix_where i) (ix_keys i ++ [k]).
Lemma class_push s k i : ix_set_op_class s (ix_push k i) = Some (ix_push (key_op_class s k) i).
Proof. unfold ix_set_op_class, ix_push. cbn. by rewrite last_snoc, List.removelast_last. Qed.
Lemma push_fold l i : fold_left (λ i k, ix_push k i) l i =
  Index (ix_schema i) (ix_table i) (ix_name i) (ix_primary i) (ix_unique i) (ix_using i) (ix_where i) (ix_keys i ++ l).
Proof.
  revert i. induction l as [|k l IH]; intros i; [rewrite app_nil_r; by destruct i|].
  cbn [fold_left]. rewrite IH. unfold ix_push. cbn [ix_schema ix_table ix_name ix_primary ix_unique ix_using ix_where ix_keys].
  by rewrite <-app_assoc.
Qed.

(** * What follows a column or an expression *)
Definition pending (q : N) (b : string) : option index_key :=
  if N.eqb q 37 || N.eqb q 34 then Some (IndexKey b "" "" false)
  else if N.eqb q 25 then Some (IndexKey "" b "" false) else None.
(** The text after a key, and the state it leads to. *)
Definition goal (last : bool) : N := if last then 53%N else 33%N.
Definition sep (last : bool) : string := if last then ")" else ", ".
Lemma pending_cases q b k : pending q b = Some k →
  (q = 37%N ∨ q = 34%N) ∧ k = IndexKey b "" "" false ∨ q = 25%N ∧ k = IndexKey "" b "" false.
Proof.
  unfold pending. destruct (N.eqb_spec q 37); [cbn; intros [= <-]; by auto|].
  destruct (N.eqb_spec q 34); [cbn; intros [= <-]; by auto|].
  destruct (N.eqb_spec q 25); [cbn; intros [= <-]; by auto|done].
Qed.
Lemma pending_sep last q b k x : pending q b = Some k → iwalk q (b, x) (sep last) = Some (goal last, ("", ix_push k x)).
Proof. intros [[[-> | ->] ->]|[-> ->]]%pending_cases; destruct last; vm_compute; reflexivity. Qed.
Lemma pending_space q b k x : pending q b = Some k → iwalk q (b, x) " " = Some (26%N, ("", ix_push k x)).
Proof. intros [[[-> | ->] ->]|[-> ->]]%pending_cases; vm_compute; reflexivity. Qed.
(** After an operator class. *)
Lemma class_sep last b k x t :
  igo 35 (b, ix_push k x) (sep last +:+ t) = igo (goal last) ("", ix_push (key_op_class b k) x) t.
Proof.
  destruct last; unfold sep, goal.
  - change (")" +:+ t) with (String ")" t). cbn [go].
    change (step index_machine 35 (byte_of ")")) with (Some ([IxOpClass], 53%N)). cbn [do_all ix_act]. by rewrite class_push.
  - change (", " +:+ t) with (String "," (" " +:+ t)). cbn [go].
    change (step index_machine 35 (byte_of ",")) with (Some ([IxOpClass], 33%N)). cbn [do_all ix_act]. rewrite class_push.
    apply go_walk. vm_compute; reflexivity.
Qed.
Lemma class_space b k x t : igo 35 (b, ix_push k x) (String " " t) = igo 36 ("", ix_push (key_op_class b k) x) t.
Proof.
  cbn [go]. change (step index_machine 35 (byte_of " ")) with (Some ([IxOpClass], 36%N)). cbn [do_all ix_act]. by rewrite class_push.
Qed.
(** The start of a printed name. *)
Definition starter (z : Z) : bool := small_code z || (z =? 95) || (z =? 34).
Lemma name_starts reserved n : ∃ c r, printed_name reserved n = String c r ∧ starter (byte_of c) = true.
Proof.
  destruct (safe_name_plain reserved n) as [[-> [(c & r & -> & Hc & _) _]]|[r [[-> _]|[-> _]]]].
  - exists c, r. split; [done|]. unfold starter, small_code. lia.
  - by exists "_"%char, r.
  - by exists dquote, r.
Qed.
Lemma named_starts reserved o : ∃ c r, printed_named reserved o = String c r ∧ starter (byte_of c) = true.
Proof.
  unfold printed_named. destruct (nm_visible o).
  - rewrite app_nil_str. apply name_starts.
  - destruct (name_starts reserved (nm_schema o)) as (c & r & -> & Hc). rewrite !app_str_cons. by exists c, ((r +:+ ".") +:+ printed_name reserved (nm_name o)).
Qed.
Definition refuses (q : N) (ok : Z → bool) : bool := forallb (λ c, negb (ok c) || stops (step index_machine q c)) codes.
Lemma refuses_step q ok c : refuses q ok = true → ok (byte_of c) = true → step index_machine q (byte_of c) = None.
Proof.
  unfold refuses. rewrite forallb_forall. intros H Hc. specialize (H (byte_of c)). rewrite <-elem_of_list_In in H.
  specialize (H (byte_codes c)). rewrite Hc in H. by apply stops_true.
Qed.
Lemma refuses_named reserved q o mem t r : refuses q starter = true → result (igo q mem (printed_named reserved o +:+ t)) ≠ Parsed r.
Proof.
  intros Hq. destruct (named_starts reserved o) as (c & s & -> & Hc). rewrite app_str_cons. cbn [go].
  by rewrite (refuses_step q starter).
Qed.
Definition printed_rest (reserved : string → bool) (k : key_shape) : string :=
  match ks_collation k with None => "" | Some c => " COLLATE " +:+ printed_named reserved c end +:+
  match ks_class k with None => "" | Some c => " " +:+ printed_named reserved c end +:+
  (if ks_descending k then " DESC" else "") +:+
  match ks_nulls k with NullsDefault => "" | NullsFirst => " NULLS FIRST" | NullsLast => " NULLS LAST" end.
Lemma rest_reads reserved last k q b key x t r : pending q b = Some key →
  result (igo q (b, x) (printed_rest reserved k +:+ sep last +:+ t)) = Parsed r ↔
  ks_collation k = None ∧ (∀ c, ks_class k = Some c → plain_named reserved c ∧ ks_descending k = false) ∧
  ks_nulls k = NullsDefault ∧
  result (igo (goal last) ("", ix_push (key_op_class
    (if ks_descending k then "DESC" else match ks_class k with None => "" | Some c => nm_name c end) key) x) t) = Parsed r.
Proof.
  intros Hq. unfold printed_rest. destruct k as [src co cl de nu]. cbn [ks_collation ks_class ks_descending ks_nulls].
  assert (key_op_class "" key = key) as Hkey by (by apply pending_cases in Hq as [[_ ->]|[_ ->]]).
  assert (∀ s mem, igo 36 mem (String "D" s) = ParseError 0) as HD by reflexivity.
  assert (∀ s mem, igo 36 mem (String "N" s) = ParseError 0) as HN by reflexivity.
  assert (∀ s mem, igo 36 mem (String "F" s) = ParseError 0) as HF by reflexivity.
  assert (∀ s mem, igo 36 mem (String "L" s) = ParseError 0) as HL by reflexivity.
  destruct co as [co|].
  { split; [|naive_solver]. intros H. exfalso. revert H. rewrite <-!app_str_assoc.
    change (" COLLATE " +:+ ?y) with (" " +:+ "COLLATE" +:+ String " " y).
    rewrite (go_walk _ _ _ _ _ _ _ _ (pending_space q b key x Hq)).
    rewrite (go_ident index_machine ix_act ix_adds 26 35); [|vm_compute; reflexivity|].
    - rewrite class_space. apply refuses_named. vm_compute; reflexivity.
    - eexists _, _. split; [reflexivity|]. split; [left; vm_compute; by split|]. apply all_bytes_name. vm_compute; reflexivity. }
  rewrite app_nil_str. destruct cl as [cl|].
  { rewrite <-!app_str_assoc. rewrite (go_walk _ _ _ _ _ _ _ _ (pending_space q b key x Hq)).
    rewrite (go_named index_machine ix_act ix_adds reserved 26 35) by (vm_compute; reflexivity).
    destruct de.
    { change (" DESC" +:+ ?y) with (String " " (String "D" ("ESC" +:+ y))). rewrite class_space.
      rewrite HD. cbn [result].
      split; [by intros [_ ?]|intros (_ & H & _)]. by destruct (H cl eq_refl). }
    rewrite app_nil_str. destruct nu.
    - rewrite app_nil_str, class_sep. split; [intros [H1 H2]; split_and!; try done; by intros ? [= <-]|].
      intros (_ & H & _ & H2). split; [by apply (H cl)|done].
    - change (" NULLS FIRST" +:+ ?y) with (String " " (String "N" ("ULLS FIRST" +:+ y))). rewrite class_space.
      rewrite HN. cbn [result]. split; [by intros [_ ?]|by intros (_ & _ & ? & _)].
    - change (" NULLS LAST" +:+ ?y) with (String " " (String "N" ("ULLS LAST" +:+ y))). rewrite class_space.
      rewrite HN. cbn [result]. split; [by intros [_ ?]|by intros (_ & _ & ? & _)]. }
  rewrite app_nil_str. destruct de.
  { rewrite <-!app_str_assoc. change (" DESC" +:+ ?y) with (" " +:+ "DESC" +:+ y).
    rewrite (go_walk _ _ _ _ _ _ _ _ (pending_space q b key x Hq)).
    rewrite (go_ident index_machine ix_act ix_adds 26 35); [|vm_compute; reflexivity|]; cycle 1.
    { eexists _, _. split; [reflexivity|]. split; [left; vm_compute; by split|]. apply all_bytes_name. vm_compute; reflexivity. }
    destruct nu.
    - rewrite app_nil_str, class_sep. naive_solver.
    - change (" NULLS FIRST" +:+ ?y) with (String " " (String "N" ("ULLS FIRST" +:+ y))). rewrite class_space.
      rewrite HN. naive_solver.
    - change (" NULLS LAST" +:+ ?y) with (String " " (String "N" ("ULLS LAST" +:+ y))). rewrite class_space.
      rewrite HN. naive_solver. }
  rewrite app_nil_str. destruct nu.
  - rewrite app_nil_str, (go_walk _ _ _ _ _ _ _ _ (pending_sep last q b key x Hq)), Hkey. naive_solver.
  - change (" NULLS FIRST" +:+ ?y) with (" " +:+ "NULLS" +:+ String " " (String "F" ("IRST" +:+ y))).
    rewrite (go_walk _ _ _ _ _ _ _ _ (pending_space q b key x Hq)).
    rewrite (go_ident index_machine ix_act ix_adds 26 35); [|vm_compute; reflexivity|]; cycle 1.
    { eexists _, _. split; [reflexivity|]. split; [left; vm_compute; by split|]. apply all_bytes_name. vm_compute; reflexivity. }
    rewrite class_space. rewrite HF. naive_solver.
  - change (" NULLS LAST" +:+ ?y) with (" " +:+ "NULLS" +:+ String " " (String "L" ("AST" +:+ y))).
    rewrite (go_walk _ _ _ _ _ _ _ _ (pending_space q b key x Hq)).
    rewrite (go_ident index_machine ix_act ix_adds 26 35); [|vm_compute; reflexivity|]; cycle 1.
    { eexists _, _. split; [reflexivity|]. split; [left; vm_compute; by split|]. apply all_bytes_name. vm_compute; reflexivity. }
    rewrite class_space. rewrite HL. naive_solver.
Qed.

(** * Columns and expressions *)
Definition open_code (z : Z) : bool := negb (z =? 41).
Lemma no_close_open s : no_close s → all_bytes (λ c, open_code (byte_of c) = true) s.
Proof.
  intros H c Hc. unfold open_code. apply negb_true_iff, Z.eqb_neq. intros E. apply H.
  by rewrite <-(byte_of_inj c ")"%char E).
Qed.
Lemma printed_key_eq reserved k : printed_key reserved k = printed_source reserved (ks_source k) +:+ printed_rest reserved k.
Proof. done. Qed.
Definition source_key (reserved : string → bool) (s : key_source) : index_key :=
  match s with KeyColumn c => IndexKey c "" "" false | _ => IndexKey "" (printed_source reserved s) "" false end.
Definition source_state (q : N) (s : key_source) : N := match s with KeyColumn _ => q | _ => 25 end.
Definition source_buffer (reserved : string → bool) (s : key_source) : string :=
  match s with KeyColumn c => c | _ => printed_source reserved s end.
Lemma plain_printed reserved n : plain_name reserved n → printed_name reserved n = n.
Proof. intros H. by destruct (safe_name_plain reserved n) as [[-> _]|[r [[_ []]|[_ []]]]]. Qed.
Lemma plain_printed_named reserved o : plain_named reserved o → printed_named reserved o = nm_name o.
Proof. intros [H1 H2]. unfold printed_named. rewrite H1. by apply plain_printed. Qed.
Lemma first_source reserved s x t r : simple_source s →
  result (igo 22 ("", x) (printed_source reserved s +:+ t)) = Parsed r ↔
  readable_source reserved s ∧ result (igo (source_state 37 s) (source_buffer reserved s, x) t) = Parsed r.
Proof.
  destruct s as [c|f a|e]; cbn [simple_source printed_source readable_source source_state source_buffer]; intros Hs.
  - apply (go_name index_machine ix_act ix_adds). vm_compute; reflexivity.
  - rewrite <-!app_str_assoc, (go_named index_machine ix_act ix_adds reserved 22 37) by (vm_compute; reflexivity).
    assert (plain_named reserved f → igo 37 (nm_name f, x) ("(" +:+ a +:+ ")" +:+ t) =
      igo 25 (printed_named reserved f +:+ "(" +:+ a +:+ ")", x) t) as H; [|intuition congruence].
    intros Hf. rewrite (plain_printed_named _ _ Hf).
    rewrite (go_walk index_machine ix_act 37 _ "(" _ 24 (nm_name f +:+ "(", x)) by (vm_compute; reflexivity).
    rewrite (loops_go 24 open_code) by (try (vm_compute; reflexivity); by apply no_close_open).
    change (")" +:+ t) with (String ")" t). rewrite (loops_first 24 25 (Z.eqb 41)) by (vm_compute; reflexivity).
    unfold push. by rewrite <-!app_str_assoc.
  - destruct e as [|c e].
    { split; [|intros [[? _] _]; done]. intros [b H]%result_parsed. exfalso. revert H.
      apply (go_stop index_machine ix_act). vm_compute; reflexivity. }
    rewrite <-!app_str_assoc.
    rewrite (go_walk index_machine ix_act 22 _ "(" _ 23 ("(", x)) by (vm_compute; reflexivity).
    rewrite app_str_cons, (loops_first 23 24 open_code);
      [|vm_compute; reflexivity|apply (no_close_open _ Hs), has_byte_cons; by left].
    rewrite (loops_go 24 open_code); [|vm_compute; reflexivity|].
    2:{ intros d Hd. apply (no_close_open _ Hs), has_byte_cons. by right. }
    change (")" +:+ t) with (String ")" t). rewrite (loops_first 24 25 (Z.eqb 41)) by (vm_compute; reflexivity).
    unfold push. rewrite <-!app_str_assoc, app_str_cons. naive_solver.
Qed.
Lemma later_source reserved s x t r :
  result (igo 33 ("", x) (printed_source reserved s +:+ t)) = Parsed r ↔
  is_column s ∧ readable_source reserved s ∧ result (igo (source_state 34 s) (source_buffer reserved s, x) t) = Parsed r.
Proof.
  destruct s as [c|f a|e]; cbn [printed_source readable_source source_state source_buffer is_column].
  - rewrite (go_name index_machine ix_act ix_adds reserved 33 34) by (vm_compute; reflexivity). tauto.
  - rewrite <-!app_str_assoc, (go_named index_machine ix_act ix_adds reserved 33 34) by (vm_compute; reflexivity).
    split; [|tauto]. intros (_ & [b H]%result_parsed). exfalso. revert H.
    apply (go_stop index_machine ix_act). vm_compute; reflexivity.
  - rewrite <-!app_str_assoc. split; [|tauto]. intros [b H]%result_parsed. exfalso. revert H.
    apply (go_stop index_machine ix_act). vm_compute; reflexivity.
Qed.
Lemma source_pending reserved q s : q = 37%N ∨ q = 34%N →
  pending (source_state q s) (source_buffer reserved s) = Some (source_key reserved s).
Proof. intros [-> | ->]; by destruct s. Qed.
Lemma class_as_read reserved k :
  key_op_class (if ks_descending k then "DESC" else match ks_class k with None => "" | Some c => nm_name c end)
    (source_key reserved (ks_source k)) = key_as_read reserved k.
Proof. unfold key_as_read, source_key. by destruct (ks_source k). Qed.
Lemma first_key reserved last k x t r : simple_source (ks_source k) →
  result (igo 22 ("", x) (printed_key reserved k +:+ sep last +:+ t)) = Parsed r ↔
  accepted_key reserved k ∧ result (igo (goal last) ("", ix_push (key_as_read reserved k) x) t) = Parsed r.
Proof.
  intros Hs. rewrite printed_key_eq, <-app_str_assoc, first_source by done.
  rewrite (rest_reads reserved last k _ _ (source_key reserved (ks_source k)))
    by (apply source_pending; by left). rewrite class_as_read. unfold accepted_key. tauto.
Qed.
Lemma later_key reserved last k x t r :
  result (igo 33 ("", x) (printed_key reserved k +:+ sep last +:+ t)) = Parsed r ↔
  is_column (ks_source k) ∧ accepted_key reserved k ∧
  result (igo (goal last) ("", ix_push (key_as_read reserved k) x) t) = Parsed r.
Proof.
  rewrite printed_key_eq, <-app_str_assoc, later_source.
  rewrite (rest_reads reserved last k _ _ (source_key reserved (ks_source k)))
    by (apply source_pending; by right). rewrite class_as_read. unfold accepted_key. tauto.
Qed.
Lemma keys_text reserved k l t :
  String.concat ", " (printed_key reserved <$> k :: l) +:+ ")" +:+ t =
  printed_key reserved k +:+ sep (match l with [] => true | _ => false end) +:+
  match l with [] => t | _ => String.concat ", " (printed_key reserved <$> l) +:+ ")" +:+ t end.
Proof.
  destruct l as [|k' l]; [done|]. rewrite !fmap_cons. cbn [String.concat].
  rewrite <-!app_str_assoc. done.
Qed.
Lemma later_keys reserved k l x t r :
  result (igo 33 ("", x) (String.concat ", " (printed_key reserved <$> k :: l) +:+ ")" +:+ t)) = Parsed r ↔
  Forall (λ k, is_column (ks_source k)) (k :: l) ∧ Forall (accepted_key reserved) (k :: l) ∧
  result (igo 53 ("", fold_left (λ i k, ix_push k i) (key_as_read reserved <$> k :: l) x) t) = Parsed r.
Proof.
  revert k x. induction l as [|k' l IH]; intros k x; rewrite keys_text, later_key.
  - rewrite !Forall_singleton. cbn. tauto.
  - rewrite (list.Forall_cons _ k (k' :: l)), (list.Forall_cons _ k (k' :: l)).
    change (goal _) with 33%N. rewrite IH. cbn [fmap list_fmap fold_left]. tauto.
Qed.
Lemma all_keys reserved l x t r : Forall (λ k, simple_source (ks_source k)) l →
  result (igo 22 ("", x) (String.concat ", " (printed_key reserved <$> l) +:+ ")" +:+ t)) = Parsed r ↔
  l ≠ [] ∧ Forall (λ k, is_column (ks_source k)) (tail l) ∧ Forall (accepted_key reserved) l ∧
  result (igo 53 ("", fold_left (λ i k, ix_push k i) (key_as_read reserved <$> l) x) t) = Parsed r.
Proof.
  intros Hs. destruct l as [|k l].
  { split; [|naive_solver]. intros [b H]%result_parsed. exfalso. revert H.
    rewrite app_str_assoc. apply (go_stop index_machine ix_act). vm_compute; reflexivity. }
  apply list.Forall_cons in Hs as [Hk Hl]. rewrite keys_text, first_key by done. rewrite (list.Forall_cons _ k l).
  destruct l as [|k' l].
  - cbn [tail]. rewrite (list.Forall_nil (λ k, is_column (ks_source k))), (list.Forall_nil (accepted_key reserved)).
    change (goal _) with 53%N. cbn [fmap list_fmap fold_left]. naive_solver.
  - change (goal _) with 33%N. rewrite later_keys. cbn [tail fmap list_fmap fold_left]. naive_solver.
Qed.

(** * ONLY *)
(** The states alone. *)
Fixpoint states (q : N) (s : string) : option N :=
  match s with
  | "" => Some q
  | String c s => match step index_machine q (byte_of c) with None => None | Some (_, q') => states q' s end
  end.
Lemma states_go q mem s t r : result (igo q mem (s +:+ t)) = Parsed r →
  ∃ q' mem', states q s = Some q' ∧ result (igo q' mem' t) = Parsed r.
Proof.
  revert q mem. induction s as [|c s IH]; intros q mem H; [exists q, mem; exact (conj eq_refl H)|].
  rewrite app_str_cons in H. cbn [go states] in *.
  destruct (step index_machine q (byte_of c)) as [[acts q']|]; [|discriminate H].
  destruct (do_all ix_act acts (Some c) 0 mem) as [mem'|]; [|discriminate H]. exact (IH q' mem' H).
Qed.
(** States after ON ONLY and a space, and letters of a name. *)
Definition only_states : list N := [38; 39; 40; 41; 42]%N.
Definition only_closed : bool :=
  forallb (λ q, forallb (λ c, negb (name_code c) ||
    match step index_machine q c with None => true | Some (_, q') => existsb (N.eqb q') only_states end) codes) (21%N :: only_states).
Lemma only_step q mem c s r : q ∈ 21%N :: only_states → name_byte c →
  result (igo q mem (String c s)) = Parsed r → ∃ q' mem', q' ∈ only_states ∧ result (igo q' mem' s) = Parsed r.
Proof.
  assert (only_closed = true) as Hc by (vm_compute; reflexivity).
  intros Hq Hb H. cbn [go] in H. unfold only_closed in Hc. rewrite forallb_forall in Hc.
  pose proof (Hc q) as Hcq. rewrite <-elem_of_list_In in Hcq. specialize (Hcq Hq). rewrite forallb_forall in Hcq.
  specialize (Hcq (byte_of c)). rewrite <-elem_of_list_In in Hcq. specialize (Hcq (byte_codes c)).
  destruct (step index_machine q (byte_of c)) as [[acts q']|]; [|discriminate H].
  destruct (do_all ix_act acts (Some c) 0 mem) as [mem'|]; [|discriminate H].
  apply orb_true_iff in Hcq as [Hn|Hq'].
  - exfalso. apply negb_true_iff in Hn. unfold name_code, letter_code in Hn. rewrite !orb_false_iff, !bool_decide_eq_false in Hn.
    unfold name_byte, letter_byte in Hb. tauto.
  - apply existsb_exists in Hq' as (q2 & Hin & ->%N.eqb_eq). apply elem_of_list_In in Hin.
    exists q2, mem'. exact (conj Hin H).
Qed.
Lemma only_walk q mem s t r : q ∈ only_states → all_bytes name_byte s →
  result (igo q mem (s +:+ t)) = Parsed r → ∃ q' mem', q' ∈ only_states ∧ result (igo q' mem' t) = Parsed r.
Proof.
  revert q mem. induction s as [|c s IH]; intros q mem Hq Hs H; [exists q, mem; exact (conj Hq H)|].
  rewrite app_str_cons in H. apply only_step in H as (q' & mem' & Hq' & H);
    [|apply elem_of_cons; by right|apply Hs, has_byte_cons; by left].
  apply (IH q' mem' Hq'); [|exact H]. intros d Hd. apply Hs, has_byte_cons. by right.
Qed.
Lemma plain_bytes reserved n : plain_name reserved n → all_bytes name_byte n.
Proof.
  intros H c Hc. apply plain_ident in H as (d & s & -> & Hd & Hs).
  apply has_byte_cons in Hc as [<-|Hc]; [by left|by apply Hs].
Qed.
Lemma only_name reserved n mem t r :
  result (igo 21 mem (printed_name reserved n +:+ t)) = Parsed r → ∃ q' mem', q' ∈ only_states ∧ result (igo q' mem' t) = Parsed r.
Proof.
  destruct (safe_name_plain reserved n) as [[-> Hn]|[s [[-> _]|[-> _]]]].
  - apply plain_ident in Hn as (c & s & -> & Hc & Hs). rewrite app_str_cons.
    intros (q' & mem' & Hq' & H)%only_step; [|apply elem_of_cons; by left|by left].
    exact (only_walk q' mem' s t r Hq' Hs H).
  - intros [b H]%result_parsed. exfalso. revert H. change (String "_" s) with ("_" +:+ s). rewrite <-app_str_assoc.
    apply go_stop. vm_compute; reflexivity.
  - intros [b H]%result_parsed. exfalso. revert H. change (String dquote s) with (String dquote "" +:+ s). rewrite <-app_str_assoc.
    apply go_stop. vm_compute; reflexivity.
Qed.
Lemma only_rejected reserved tb meth x t r :
  result (igo 21 ("", x) (printed_named reserved tb +:+ " USING " +:+ printed_name reserved meth +:+ t)) ≠ Parsed r.
Proof.
  unfold printed_named. destruct (nm_visible tb).
  - rewrite app_nil_str. intros (q & mem & Hq & H)%only_name.
    destruct (name_starts reserved meth) as (c & s & E & Hc). rewrite E in H.
    apply states_go in H as (q' & mem' & Hq' & H).
    assert (q' = 45%N) as ->.
    { unfold only_states in Hq. repeat (apply elem_of_cons in Hq as [-> | Hq]); [..|by apply elem_of_nil in Hq];
        vm_compute in Hq'; congruence. }
    rewrite app_str_cons in H. cbn [go] in H.
    rewrite (refuses_step 45 starter) in H by (try exact Hc; vm_compute; reflexivity). discriminate H.
  - rewrite <-!app_str_assoc. intros (q & mem & Hq & H)%only_name.
    apply states_go in H as (q' & mem' & Hq' & H).
    unfold only_states in Hq. repeat (apply elem_of_cons in Hq as [-> | Hq]); [..|by apply elem_of_nil in Hq];
      vm_compute in Hq'; discriminate Hq'.
Qed.

(** * The rest *)
Lemma where_text_eq p w : where_text p w ↔ p ≠ "" ∧ w = collapse_whitespace (trim p).
Proof.
  unfold where_text. setoid_rewrite collapse_whitespace_iff. split.
  - intros (Hp & u & Hu & <-). by rewrite (trim_unique _ _ Hu).
  - intros (Hp & ->). split; [done|]. exists (trim p). split; [apply trim_spec|done].
Qed.
Lemma tail_reads reserved inc opt wh sc tb nm pr un us ks r :
  result (igo 53 ("", Index sc tb nm pr un us "" ks)
    (match inc with [] => "" | a :: l => " INCLUDE (" +:+ printed_names reserved (a :: l) +:+ ")" end +:+
     (if decide (opt = "") then "" else " WITH (" +:+ opt +:+ ")") +:+
     match wh with None => "" | Some e => " WHERE " +:+ e end)) = Parsed r ↔
  inc = [] ∧ opt = "" ∧ wh ≠ Some "" ∧
  ∃ w, match wh with None => w = "" | Some p => where_text p w end ∧ r = Index sc tb nm pr un us w ks.
Proof.
  destruct inc as [|c inc].
  2:{ split; [|by intros (? & _)]. intros [b H]%result_parsed. exfalso. revert H. rewrite <-!app_str_assoc.
      apply go_stop. vm_compute; reflexivity. }
  rewrite app_nil_str. destruct (decide (opt = "")) as [->|Ho].
  2:{ split; [|by intros (_ & ? & _)]. intros [b H]%result_parsed. exfalso. revert H. rewrite <-!app_str_assoc.
      apply go_stop. vm_compute; reflexivity. }
  rewrite app_nil_str. destruct wh as [p|].
  - rewrite (go_walk index_machine ix_act 53 _ " WHERE " _ 32 ("", Index sc tb nm pr un us "" ks)) by (vm_compute; reflexivity).
    destruct p as [|c p].
    + split; [|naive_solver]. intros H. by vm_compute in H.
    + rewrite (loops_first 32 55 (λ _, true)) by (vm_compute; reflexivity).
      rewrite <-(app_str_nil_r p) at 1. rewrite (loops_go 55 (λ _, true)); [|vm_compute; reflexivity|done].
      change (push c "" +:+ p) with (String c p).
      change (result (igo 55 (String c p, Index sc tb nm pr un us "" ks) "")) with
        (Parsed (Index sc tb nm pr un us (collapse_whitespace (trim (String c p))) ks)).
      setoid_rewrite where_text_eq. split.
      * intros [= <-]. split_and!; [done..|]. by eexists.
      * intros (_ & _ & _ & w & [_ ->] & ->). done.
  - change (result (igo 53 ("", Index sc tb nm pr un us "" ks) "")) with (Parsed (Index sc tb nm pr un us "" ks)).
    split; [intros [= <-]; split_and!; [done..|]; by eexists|]. by intros (_ & _ & _ & w & -> & ->).
Qed.
Lemma using_space b tb nm un t :
  igo 44 (b, Index "" tb nm false un "" "" []) (" (" +:+ t) = igo 45 ("", Index "" tb nm false un (collapse_whitespace b) "" []) ("(" +:+ t).
Proof.
  change (" (" +:+ t) with (String " " ("(" +:+ t)). cbn [go].
  change (step index_machine 44 (byte_of " ")) with (Some ([IxUsing], 45%N)). reflexivity.
Qed.
Lemma index_accepts reserved i r : Forall (λ k, simple_source (ks_source k)) (is_keys i) →
  parse_index (printed_index reserved i) = Parsed r ↔
  readable_around reserved i ∧ Forall (accepted_key reserved) (is_keys i) ∧
  Forall (λ k, is_column (ks_source k)) (tail (is_keys i)) ∧ read_as reserved i r.
Proof.
  intros Hs. unfold parse_index. rewrite run_go by apply ix_still. unfold printed_index, readable_around, read_as.
  destruct i as [nm un on tb meth ks inc opt wh].
  cbn [is_name is_unique is_only is_table is_method is_keys is_include is_options is_where] in *.
  rewrite (app_str_assoc (if un then "UNIQUE " else "")), (app_str_assoc "CREATE ").
  rewrite (go_walk index_machine ix_act 1 _ ("CREATE " +:+ (if un then "UNIQUE " else "") +:+ "INDEX ") _ 14
    ("", Index "" "" "" false un "" "" [])) by (destruct un; vm_compute; reflexivity).
  rewrite (go_name index_machine ix_act ix_adds reserved 14 15) by (vm_compute; reflexivity).
  rewrite (go_walk index_machine ix_act 15 _ " ON " _ 19
    ("", Index "" "" nm false un "" "" [])) by (vm_compute; reflexivity).
  destruct on.
  { split; [|intros ((_ & ? & _) & _); done]. intros [_ H]. exfalso. revert H.
    erewrite (go_walk index_machine ix_act 19 _ "ONLY ") by (vm_compute; reflexivity). apply only_rejected. }
  rewrite app_nil_str, (go_named index_machine ix_act ix_adds reserved 19 20) by (vm_compute; reflexivity).
  rewrite (go_walk index_machine ix_act 20 _ " USING " _ 43
    ("", Index "" (nm_name tb) nm false un "" "" [])) by (vm_compute; reflexivity).
  rewrite (go_name index_machine ix_act ix_adds reserved 43 44) by (vm_compute; reflexivity).
  assert (plain_name reserved meth → collapse_whitespace meth = meth) as Hm.
  { intros H%plain_ident%is_ident_plain. by apply collapse_plain. }
  rewrite using_space.
  rewrite (go_walk index_machine ix_act 45 _ "(" _ 22
    ("", Index "" (nm_name tb) nm false un (collapse_whitespace meth) "" [])) by reflexivity.
  rewrite all_keys by done. rewrite push_fold. cbn [ix_schema ix_table ix_name ix_primary ix_unique ix_using ix_where ix_keys app].
  rewrite tail_reads. split.
  - intros (H1 & H2 & H3 & H4 & H5 & H6 & H7 & H8 & H9 & w & H10 & ->). rewrite (Hm H3). naive_solver.
  - intros ((H1 & H2 & H3 & H4 & H5 & H6 & H7 & H8) & H9 & H10 & w & H11 & ->). rewrite (Hm H4). naive_solver.
Qed.

(** * Expressions with a closing parenthesis inside *)
Definition one_close (t : string) : Prop := ∃ u, t = u +:+ ")" ∧ no_close u.
Lemma ident_no_close f : is_ident f → no_close f.
Proof.
  intros (c & r & -> & Hc & Hr) [E|H]%has_byte_cons.
  - subst. unfold letter_byte in Hc. vm_compute in Hc. naive_solver.
  - specialize (Hr _ H). unfold name_byte, letter_byte in Hr. vm_compute in Hr. naive_solver.
Qed.
Lemma not_close_no_close e : all_bytes not_close e → no_close e.
Proof. intros H Hc. by specialize (H _ Hc). Qed.
Lemma key_list_inv s ks : key_list s ks →
  ∃ k l, ks = k :: l ∧ (ik_expression k = "" ∨ one_close (ik_expression k)) ∧ Forall (λ k, ik_expression k = "") l.
Proof.
  intros ([k l] & (s1 & s2 & -> & H1 & H2) & ->). exists k, l. split; [done|]. cbn [fst snd] in *. split.
  - destruct H1 as [H|[H|H]].
    + destruct H as ([t o] & (a & b & -> & H & _) & ->). right. cbn. cbn [fst] in H. destruct H as (-> & e & -> & _ & He).
      exists ("(" +:+ e). split; [by rewrite <-!app_str_assoc|]. intros [Hx|Hx]%has_byte_cons; [done|].
      by apply (not_close_no_close e He).
    + destruct H as ([t o] & (a & b & -> & H & _) & ->). right. cbn. cbn [fst] in H. destruct H as (-> & f & e & -> & Hf & He).
      exists (f +:+ "(" +:+ e). split; [by rewrite <-!app_str_assoc|].
      intros [Hx|Hx]%has_byte_app; [by apply (ident_no_close f Hf)|]. apply has_byte_cons in Hx as [Hx|Hx]; [done|].
      by apply (not_close_no_close e He).
    + destruct H as ([t o] & _ & ->). by left.
  - destruct H2 as (ss & -> & H2). apply list.Forall_forall. intros x Hx. apply elem_of_list_lookup in Hx as [n Hn].
    destruct (Forall2_lookup_r _ _ _ _ _ H2 Hn) as (y & _ & H).
    destruct H as (a & b & u & -> & _ & c & d & u' & -> & _ & e & f & u'' & -> & _ & [t o] & _ & ->). done.
Qed.
Lemma index_keys_inv s x : parse_index s = Parsed x →
  ∃ k l, ix_keys x = k :: l ∧ (ik_expression k = "" ∨ one_close (ik_expression k)) ∧ Forall (λ k, ik_expression k = "") l.
Proof.
  intros ([un [nm [tb [me [ks wh]]]]] & H & ->)%parse_index_spec. cbn [ix_keys].
  destruct H as (c1 & d1 & -> & _ & c2 & d2 & -> & _ & c3 & d3 & -> & _ & c4 & d4 & -> & _ & c5 & d5 & -> & H & _).
  cbn [fst snd] in H.
  destruct H as (e1 & f1 & v1 & -> & _ & e2 & f2 & v2 & -> & _ & e3 & f3 & v3 & -> & _ & e4 & f4 & v4 & -> & H & _).
  by apply key_list_inv in H.
Qed.
Lemma one_close_inner u a : one_close (u +:+ a +:+ ")") → no_close a.
Proof.
  intros (v & E & Hv) Ha. rewrite app_str_assoc in E. apply length_split_r in E as [<- _]; [|done].
  apply Hv, has_byte_app. by right.
Qed.
Lemma not_empty_close u : u +:+ ")" ≠ "".
Proof. by destruct u. Qed.
Lemma index_exact reserved i :
  (∃ x, parse_index (printed_index reserved i) = Parsed x ∧ index_means reserved i x) ↔ readable_index reserved i.
Proof.
  split.
  - intros (x & Hx & w & Hw & ->).
    assert (Forall (λ k, simple_source (ks_source k)) (is_keys i)) as Hs.
    { destruct (index_keys_inv _ _ Hx) as (k & l & E & Hk & Hl). cbn [ix_keys] in E.
      destruct (is_keys i) as [|k' l'] eqn:Ei; [done|]. rewrite fmap_cons in E. injection E as Ek El.
      apply list.Forall_cons. split.
      - assert (ik_expression k = key_text reserved (ks_source k')) as Et by by rewrite <-Ek.
        rewrite Et in Hk. destruct (ks_source k') as [c|f a|e]; cbn [simple_source key_text printed_source] in *; [done|..].
        + destruct Hk as [Hk|Hk].
          * exfalso. rewrite !app_str_assoc in Hk. by apply not_empty_close in Hk.
          * rewrite (app_str_assoc (printed_named _ _)) in Hk. by apply one_close_inner in Hk.
        + destruct Hk as [Hk|Hk].
          * exfalso. rewrite !app_str_assoc in Hk. by apply not_empty_close in Hk.
          * by apply one_close_inner in Hk.
      - apply list.Forall_forall. intros k2 H2. rewrite <-El in Hl. rewrite Forall_fmap in Hl.
        rewrite list.Forall_forall in Hl. specialize (Hl _ H2). unfold compose in Hl. cbn [ik_expression key_meaning] in Hl.
        destruct (ks_source k2) as [c|f a|e]; cbn [simple_source key_text printed_source] in *; [done|..];
          exfalso; rewrite !app_str_assoc in Hl; by apply not_empty_close in Hl. }
    apply index_accepts in Hx as (H1 & H2 & H3 & w' & Hw' & E); [|done]. split; [done|]. split; [|done].
    injection E as Ew Ek. clear -H2 Ek. revert Ek. induction H2 as [|k l Hk Hl IH]; [constructor|].
    rewrite !fmap_cons. intros [= H7 H8]. apply list.Forall_cons. split; [|by apply IH].
    destruct Hk as (K1 & K2 & K3 & K4). split_and!; [done..| | |done].
    + intros c Hc. by apply K3.
    + done.
  - intros (H1 & H2 & H3).
    assert (Forall (λ k, simple_source (ks_source k)) (is_keys i)) as Hs.
    { eapply list.Forall_impl; [exact H2|]. intros k (Hk & _). destruct (ks_source k); cbn in *; naive_solver. }
    assert (key_as_read reserved <$> is_keys i = key_meaning reserved <$> is_keys i) as E.
    { apply list_fmap_ext. intros n k Hn. eapply Forall_lookup_1 in H2 as (_ & _ & _ & Hd & _); [|done].
      unfold key_as_read, key_meaning. by rewrite Hd. }
    assert (∃ w, match is_where i with None => w = "" | Some p => where_text p w end) as [w Hw].
    { destruct (is_where i) as [p|] eqn:Ep; [|by exists ""]. exists (collapse_whitespace (trim p)). apply where_text_eq.
      split; [|done]. intros ->. destruct H1 as (_ & _ & _ & _ & _ & _ & _ & H1). by apply H1. }
    eexists. split; [|exists w; split; [exact Hw|reflexivity]]. apply index_accepts; [done|].
    split_and!; [done| |done|].
    + eapply list.Forall_impl; [exact H2|]. intros k (K1 & K2 & K3 & K4 & K5). split_and!; [done..| |done].
      intros c Hc. split; [by apply K3|done].
    + exists w. split; [done|]. by rewrite E.
Qed.
