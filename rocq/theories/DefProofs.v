From Coq Require Import String Ascii.
From stdpp Require Import list list_numbers strings numbers.
From Verif Require Import GoStrings GoStringsProofs GoUtf8 DdlModel DdlSpec MachineModel MachineTables ParseModel ParseGrammar ParseSpec.
From Verif Require Import GoUtf8Proofs ParseText ParseCheck ParseEquiv ParseCharset DefModel DefSpec.
Local Open Scope Z_scope.

(** * Running a machine over pieces of text *)
Section go.
  Context {M : Type} (m : machine) (act : semantics M).
  Definition still := ∀ a c p mem, act a c p mem = act a c 0 mem.
  Fixpoint go (q : N) (mem : M) (s : string) : outcome M :=
    match s with
    | "" =>
        match do_all act (at_eof m q) None 0 mem with
        | Some mem => if (q <? ma_final m)%N then ParseError q else Parsed mem
        | None => Crash
        end
    | String c s =>
        match step m q (byte_of c) with
        | None => ParseError 0
        | Some (acts, q') =>
            match do_all act acts (Some c) 0 mem with
            | Some mem => go q' mem s
            | None => Crash
            end
        end
    end.
  Lemma do_all_still l c p mem : still → do_all act l c p mem = do_all act l c 0 mem.
  Proof.
    intros H. revert mem. induction l as [|a l IH]; intros mem; cbn; [done|].
    rewrite (H a c p). destruct (act a c 0 mem); [apply IH|done].
  Qed.
  Lemma run_go q p mem s : still → run m act q p mem s = go q mem s.
  Proof.
    intros H. revert q p mem. induction s as [|c s IH]; intros q p mem; cbn.
    - by rewrite do_all_still.
    - destruct (step m q (byte_of c)) as [[acts q']|]; [|done].
      rewrite do_all_still by done. destruct (do_all act acts (Some c) 0 mem); [apply IH|done].
  Qed.
  (** What a piece does: an error, or the next state and variables. *)
  Fixpoint walk (q : N) (mem : M) (s : string) : option (N * M) :=
    match s with
    | "" => Some (q, mem)
    | String c s =>
        match step m q (byte_of c) with
        | None => None
        | Some (acts, q') =>
            match do_all act acts (Some c) 0 mem with
            | Some mem => walk q' mem s
            | None => None
            end
        end
    end.
  Lemma go_walk q mem s t q' mem' : walk q mem s = Some (q', mem') → go q mem (s +:+ t) = go q' mem' t.
  Proof.
    revert q mem. induction s as [|c s IH]; intros q mem; [by intros [= -> ->]|]. rewrite app_str_cons. cbn.
    destruct (step m q (byte_of c)) as [[acts q1]|]; [|done].
    destruct (do_all act acts (Some c) 0 mem); [|done]. apply IH.
  Qed.
  Lemma go_stop q mem s t r : walk q mem s = None → go q mem (s +:+ t) = Parsed r → False.
  Proof.
    revert q mem. induction s as [|c s IH]; intros q mem; [done|]. rewrite app_str_cons. cbn.
    destruct (step m q (byte_of c)) as [[acts q1]|]; [|done].
    destruct (do_all act acts (Some c) 0 mem); [|done]. apply IH.
  Qed.
End go.
Lemma fk_still : still fk_act. Proof. by intros [] c p [b x]. Qed.
Lemma tg_still : still tg_act. Proof. by intros [] c p [b x]. Qed.
Lemma ix_still : still ix_act. Proof. by intros [] c p [b x]. Qed.


(** * Names *)
Definition letter_code (z : Z) : bool := bool_decide (65 ≤ z ≤ 90) || bool_decide (97 ≤ z ≤ 122).
Definition name_code (z : Z) : bool := letter_code z || bool_decide (48 ≤ z ≤ 57) || bool_decide (z = 95).
Definition goes (o : option (list action * N)) (q : N) : bool :=
  match o with Some ([AddToBuffer], q') => N.eqb q q' | _ => false end.
Definition stops (o : option (list action * N)) : bool := match o with None => true | _ => false end.
(** From [q] a name leads to [q1]; quotes, underscores at the start and dots are errors. *)
Definition name_at (m : machine) (q q1 : N) : bool :=
  forallb (λ c,
    (negb (letter_code c) || goes (step m q c) q1) && (negb (name_code c) || goes (step m q1 c) q1)) codes
  && stops (step m q 34) && stops (step m q 95) && stops (step m q1 46).
Lemma goes_true o q : goes o q = true → o = Some ([AddToBuffer], q).
Proof. destruct o as [[[|[] []] q']|]; cbn; try done. by intros ->%N.eqb_eq. Qed.
Lemma stops_true o : stops o = true → o = None.
Proof. by destruct o. Qed.

Lemma has_byte_list c s : has_byte c s ↔ c ∈ list_ascii_of_string s.
Proof.
  induction s as [|d s IH]; cbn.
  - split; [by intros ?%has_byte_nil|by intros ?%elem_of_nil].
  - rewrite has_byte_cons, elem_of_cons, IH. naive_solver.
Qed.
Lemma safe_name_plain reserved n :
  printed_name reserved n = n ∧ plain_name reserved n ∨
  ∃ r, printed_name reserved n = String "_" r ∧ ¬ plain_name reserved n ∨
       printed_name reserved n = String dquote r ∧ ¬ plain_name reserved n.
Proof.
  unfold printed_name. destruct (reserved n) eqn:Er.
  { right. rewrite andb_false_r. eexists. right. split; [reflexivity|]. intros [_ H]. by rewrite Er in H. }
  rewrite andb_true_r. destruct n as [|c n]; cbn [safe_name].
  { right. eexists. right. split; [reflexivity|]. by intros [(? & ? & ? & _) _]. }
  destruct (safe_first c) eqn:Ec; cbn [andb]; cycle 1.
  { right. eexists. right. split; [reflexivity|]. intros [(c' & r & [= <- <-] & Hc & _) _].
    unfold safe_first, small_code in Ec. lia. }
  destruct (forallb safe_later (list_ascii_of_string n)) eqn:En; cycle 1.
  { right. eexists. right. split; [reflexivity|]. intros [(c' & r & [= <- <-] & _ & Hr) _].
    assert (forallb safe_later (list_ascii_of_string n) = true) as H; [|by rewrite H in En].
    apply forallb_forall. intros d Hd. apply elem_of_list_In in Hd. apply has_byte_list in Hd.
    specialize (Hr d Hd). cbn in Hr. unfold safe_later, safe_first, small_code. lia. }
  destruct (decide (byte_of c = 95)) as [E|E].
  { right. exists n. left. split; [by rewrite (byte_of_inj c "_"%char E)|].
    intros [(c' & r & [= <- <-] & Hc & _) _]. lia. }
  left. split; [done|]. split; [|done]. exists c, n. split; [done|]. split.
  - unfold safe_first, small_code in Ec. lia.
  - intros d Hd. rewrite forallb_forall in En. specialize (En d). unfold safe_later, safe_first, small_code in En.
    apply has_byte_list in Hd. apply elem_of_list_In in Hd. specialize (En Hd). lia.
Qed.

Lemma plain_ident reserved n : plain_name reserved n → is_ident n.
Proof.
  intros [(c & r & -> & Hc & Hr) _]. exists c, r. split; [done|]. split; [by right|].
  intros d Hd. specialize (Hr d Hd). cbn in Hr. unfold name_byte, letter_byte. lia.
Qed.
Section names.
  Context {A : Type} (m : machine) (act : semantics (string * A)).
  Context (adds : ∀ c b x, act AddToBuffer (Some c) 0 (b, x) = Some (push c b, x)).
  Lemma name_at_letter q q1 c : name_at m q q1 = true → letter_byte c →
    step m q (byte_of c) = Some ([AddToBuffer], q1).
  Proof.
    unfold name_at. rewrite !andb_true_iff. intros [[[H _] _] _] Hc. rewrite forallb_forall in H.
    specialize (H (byte_of c)). rewrite <-elem_of_list_In in H. specialize (H (byte_codes c)).
    apply andb_true_iff in H as [H _]. apply orb_true_iff in H as [H|H]; [|by apply goes_true].
    apply negb_true_iff in H. exfalso. unfold letter_code in H. apply orb_false_iff in H as [H1 H2].
    rewrite bool_decide_eq_false in H1, H2. destruct Hc; contradiction.
  Qed.
  Lemma name_at_name q q1 c : name_at m q q1 = true → name_byte c →
    step m q1 (byte_of c) = Some ([AddToBuffer], q1).
  Proof.
    unfold name_at. rewrite !andb_true_iff. intros [[[H _] _] _] Hc. rewrite forallb_forall in H.
    specialize (H (byte_of c)). rewrite <-elem_of_list_In in H. specialize (H (byte_codes c)).
    apply andb_true_iff in H as [_ H]. apply orb_true_iff in H as [H|H]; [|by apply goes_true].
    apply negb_true_iff in H. exfalso. unfold name_code, letter_code in H.
    rewrite !orb_false_iff, !bool_decide_eq_false in H. destruct Hc as [[]|[]]; tauto.
  Qed.
  Lemma name_rest q q1 n b x t : name_at m q q1 = true → all_bytes name_byte n →
    go m act q1 (b, x) (n +:+ t) = go m act q1 (b +:+ n, x) t.
  Proof.
    intros Hq. revert b. induction n as [|c n IH]; intros b Hn; [by rewrite app_str_nil_r|].
    rewrite app_str_cons. cbn [go]. rewrite (name_at_name q) by (try done; apply Hn, has_byte_cons; by left).
    cbn [do_all]. rewrite adds. rewrite IH by (intros d Hd; apply Hn, has_byte_cons; by right).
    unfold push. by rewrite <-app_str_assoc.
  Qed.
  Lemma go_ident q q1 n x t : name_at m q q1 = true → is_ident n →
    go m act q ("", x) (n +:+ t) = go m act q1 (n, x) t.
  Proof.
    intros Hq (c & r & -> & Hc & Hr). rewrite app_str_cons. cbn [go].
    rewrite (name_at_letter q q1) by done. cbn [do_all]. rewrite adds. by rewrite (name_rest q).
  Qed.
  Lemma go_name reserved q q1 n x t r : name_at m q q1 = true →
    result (go m act q ("", x) (printed_name reserved n +:+ t)) = Parsed r ↔
    plain_name reserved n ∧ result (go m act q1 (n, x) t) = Parsed r.
  Proof.
    intros Hq. destruct (safe_name_plain reserved n) as [[-> Hn]|[r' [[-> Hn]|[-> Hn]]]].
    - rewrite (go_ident q q1) by (try done; by eapply plain_ident). naive_solver.
    - rewrite app_str_cons. cbn [go]. unfold name_at in Hq. rewrite !andb_true_iff in Hq. destruct Hq as [[[_ _] H] _].
      change (byte_of "_") with 95. apply stops_true in H. rewrite H. naive_solver.
    - rewrite app_str_cons. cbn [go]. unfold name_at in Hq. rewrite !andb_true_iff in Hq. destruct Hq as [[[_ H] _] _].
      change (byte_of dquote) with 34. apply stops_true in H. rewrite H. naive_solver.
  Qed.
  Lemma go_named reserved q q1 o x t r : name_at m q q1 = true →
    result (go m act q ("", x) (printed_named reserved o +:+ t)) = Parsed r ↔
    plain_named reserved o ∧ result (go m act q1 (nm_name o, x) t) = Parsed r.
  Proof.
    intros Hq. unfold printed_named, plain_named. destruct (nm_visible o).
    - change ("" +:+ printed_name reserved (nm_name o)) with (printed_name reserved (nm_name o)).
      rewrite (go_name reserved q q1) by done. tauto.
    - rewrite <-!app_str_assoc, (go_name reserved q q1) by done. change "." with (String "." ""). rewrite app_str_cons.
      cbn [go]. unfold name_at in Hq. rewrite !andb_true_iff in Hq. destruct Hq as [[[_ _] _] H].
      change (byte_of ".") with 46. apply stops_true in H. rewrite H. naive_solver.
  Qed.
  (** A list of names, with what an action does with each and the text after the list. *)
  Lemma go_names reserved add q q1 q2 stop l x t r :
    name_at m q q1 = true →
    (∀ b x, walk m act q1 (b, x) ", " = Some (q, ("", add x b))) →
    (∀ b x, walk m act q1 (b, x) stop = Some (q2, ("", add x b))) →
    (l = [] → walk m act q ("", x) stop = None) →
    result (go m act q ("", x) (printed_names reserved l +:+ stop +:+ t)) = Parsed r ↔
    l ≠ [] ∧ Forall (plain_name reserved) l ∧ result (go m act q2 ("", fold_left add l x) t) = Parsed r.
  Proof.
    intros Hq Hcomma Hstop Hempty. destruct l as [|a l].
    - split; [|naive_solver]. intros [b H]%result_parsed. exfalso. eapply go_stop; [by apply Hempty|exact H].
    - clear Hempty. revert a x. induction l as [|b l IH]; intros a x.
      + change (printed_names reserved [a]) with (printed_name reserved a).
        rewrite (go_name reserved q q1) by done. rewrite (go_walk _ _ _ _ _ _ _ _ (Hstop a x)).
        rewrite Forall_singleton. cbn. naive_solver.
      + change (printed_names reserved (a :: b :: l)) with
          (printed_name reserved a +:+ ", " +:+ printed_names reserved (b :: l)).
        rewrite <-!app_str_assoc, (go_name reserved q q1) by done.
        rewrite (go_walk _ _ _ _ _ _ _ _ (Hcomma a x)), IH.
        rewrite (list.Forall_cons _ a). change (fold_left add (a :: b :: l) x) with (fold_left add (b :: l) (add x a)).
        naive_solver.
  Qed.
End names.

(** * Foreign keys *)
Lemma result_iff {A} (o : outcome (string * A)) x : result o = Parsed x ↔ ∃ b, o = Parsed (b, x).
Proof.
  split; [apply result_parsed|]. by intros (b & ->).
Qed.
Lemma fk_columns_fold l n t c r m d u x y :
  fold_left (λ f b, fk_add_column b f) l (ForeignKey n t c r m d u x y) = ForeignKey n t (c ++ l) r m d u x y.
Proof. revert c. induction l as [|a l IH]; intros c; [by rewrite app_nil_r|]. cbn [fold_left]. unfold fk_add_column at 2. cbn [fk_name fk_table fk_columns fk_referenced fk_match fk_on_delete fk_on_update fk_deferrable fk_deferred]. by rewrite IH, <-app_assoc. Qed.
Lemma fk_referenced_fold l n t c r m d u x y :
  fold_left (λ f b, fk_add_referenced b f) l (ForeignKey n t c r m d u x y) = ForeignKey n t c (r ++ l) m d u x y.
Proof. revert r. induction l as [|a l IH]; intros r; [by rewrite app_nil_r|]. cbn [fold_left]. unfold fk_add_referenced at 2. cbn [fk_name fk_table fk_columns fk_referenced fk_match fk_on_delete fk_on_update fk_deferrable fk_deferred]. by rewrite IH, <-app_assoc. Qed.
Lemma fk_adds c b x : fk_act AddToBuffer (Some c) 0 (b, x) = Some (push c b, x).
Proof. done. Qed.

(** The text after the referenced columns, without ON DELETE SET NULL (columns). *)
Lemma fk_tail_reads k u d x y v t c l r :
  result (go foreign_key_machine fk_act 186 ("", ForeignKey "" t c l "" "" "" false false)
    (printed_match k +:+ printed_action "UPDATE" u +:+ printed_action "DELETE" d +:+ printed_options x y v)) = Parsed r ↔
  (u = NoAction ∨ d = NoAction) ∧ (x = true → y = true) ∧ v = true ∧
  r = ForeignKey "" t c l match k with MatchSimple => "" | MatchFull => "FULL" | MatchPartial => "PARTIAL" end
        (action_text d) (action_text u) x y.
Proof.
  destruct k, u, d, x, y, v;
    (match goal with |- result ?o = _ ↔ _ => let o' := eval vm_compute in o in assert (o = o') as -> by (vm_compute; reflexivity) end);
    cbn [result action_text]; (split; [intros [= <-]|intros (? & ? & ? & ->)]); try done;
    try (split_and!; [by (left + right)|done|done|reflexivity]); naive_solver.
Qed.

Lemma fk_reads reserved f r :
  parse_foreign_key (printed_fk reserved f) = Parsed r ↔ readable_fk reserved f ∧ r = fk_meaning f.
Proof.
  unfold parse_foreign_key. rewrite run_go by apply fk_still. unfold printed_fk.
  destruct f as [cs [sch tn vis] rs k u d dc x y v]; cbn [fs_columns fs_table fs_referenced fs_match fs_update fs_delete
    fs_delete_columns fs_deferrable fs_deferred fs_valid].
  rewrite (go_walk foreign_key_machine fk_act 1 ("", no_foreign_key) "FOREIGN KEY (" _ 14 ("", no_foreign_key))
    by (vm_compute; reflexivity).
  rewrite (go_names foreign_key_machine fk_act fk_adds reserved (λ f b, fk_add_column b f) 14 15 29 ") REFERENCES ");
    [|vm_compute; reflexivity|intros; vm_compute; reflexivity|intros; vm_compute; reflexivity|intros _; vm_compute; reflexivity].
  unfold no_foreign_key. rewrite fk_columns_fold. cbn [app].
  rewrite (go_named foreign_key_machine fk_act fk_adds reserved 29 30) by (vm_compute; reflexivity).
  rewrite (go_walk foreign_key_machine fk_act 30 _ "(" _ 31
    ("", ForeignKey "" tn cs [] "" "" "" false false)) by (vm_compute; reflexivity).
  rewrite (go_names foreign_key_machine fk_act fk_adds reserved (λ f b, fk_add_referenced b f) 31 32 186 ")");
    [|vm_compute; reflexivity|intros; vm_compute; reflexivity|intros; vm_compute; reflexivity|intros _; vm_compute; reflexivity].
  rewrite fk_referenced_fold. cbn [app].
  destruct dc as [|a dc].
  - change ("" +:+ printed_options x y v) with (printed_options x y v). rewrite fk_tail_reads.
    unfold readable_fk, fk_meaning. cbn [fs_columns fs_table fs_referenced fs_match fs_update fs_delete
      fs_delete_columns fs_deferrable fs_deferred fs_valid nm_name]. tauto.
  - split; [|intros [H _]; unfold readable_fk in H; cbn [fs_delete_columns] in H; naive_solver].
    intros (_ & _ & _ & _ & _ & [b H]%result_parsed). exfalso.
    rewrite <-(app_str_assoc " ("), !app_str_assoc in H. rewrite <-!(app_str_assoc (_ +:+ " (")) in H.
    revert H. apply go_stop. destruct k, u, d; vm_compute; reflexivity.
Qed.
