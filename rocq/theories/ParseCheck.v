(** ParseCheck against ParseSpec.v, and parsers that never crash. *)
From Coq Require Import String Ascii.
From stdpp Require Import prelude strings.
From Verif Require Import GoStrings GoStringsProofs GoUtf8 GoUtf8Proofs DdlModel DdlSpec DdlProofs
  MachineModel MachineTables Re ParseGrammar ParseModel ParseSpec ParseText ParseProofs ParseEquiv.
Local Open Scope Z_scope.

(** * Parsers that never crash *)
Lemma find_In {A} n (l : list (N * A)) a : find n l = Some a → (n, a) ∈ l.
Proof.
  induction l as [|[m b] l IH]; [done|]. simpl. destruct (N.eqb_spec n m) as [->|]; [intros [= ->]; by left|].
  intros H. right. by apply IH.
Qed.
(** [safe b acts]: what becomes of the flag [b] when the actions can be executed. *)
Definition checked_steps (m : machine) (inv : N → bool) (safe : bool → list action → option bool) : bool :=
  forallb (λ st, forallb (λ c,
    match step m st.1 c with
    | None => true
    | Some (acts, q') => match safe (inv st.1) acts with Some b => negb (inv q') || b | None => false end
    end) byte_values) (ma_states m).
Definition checked_eof (m : machine) (inv : N → bool) (safe : bool → list action → option bool) : bool :=
  forallb (λ st, match safe (inv st.1) st.2 with Some _ => true | None => false end) (ma_eof m).
Section no_crash.
  Context {M : Type} (m : machine) (act : semantics M) (inv : N → bool).
  Context (safe safe_eof : bool → list action → option bool) (J : bool → M → Prop).
  Context (J_weaken : ∀ mem, J true mem → J false mem).
  Context (Hsafe : ∀ b acts b' c p mem, safe b acts = Some b' → J b mem →
    ∃ mem', do_all act acts (Some c) p mem = Some mem' ∧ J b' mem').
  Context (Hsafe_eof : ∀ b acts b' p mem, safe_eof b acts = Some b' → J b mem → do_all act acts None p mem ≠ None).
  Context (Hsteps : checked_steps m inv safe = true) (Heof : checked_eof m inv safe_eof = true).
  Lemma run_no_crash w : ∀ q p mem, J (inv q) mem → run m act q p mem w ≠ Crash.
  Proof.
    induction w as [|c w IH]; intros q p mem HJ; cbn [run].
    - assert (do_all act (at_eof m q) None p mem ≠ None) as Hd.
      { unfold at_eof. destruct (find q (ma_eof m)) as [acts|] eqn:E; [|done]. apply find_In in E.
        unfold checked_eof in Heof. rewrite forallb_forall in Heof. apply elem_of_list_In in E.
        specialize (Heof _ E). simpl in Heof. destruct (safe_eof (inv q) acts) eqn:Es; [|done].
        by eapply Hsafe_eof. }
      destruct (do_all _ _ _ _ _); [|done]. by destruct (q <? ma_final m)%N.
    - destruct (step m q (byte_of c)) as [[acts q']|] eqn:Es; [|done].
      assert (∃ t, (q, t) ∈ ma_states m) as [t Ht].
      { unfold step in Es. destruct (find q (ma_states m)) as [t|] eqn:E; [|done]. exists t. by apply find_In. }
      unfold checked_steps in Hsteps. rewrite forallb_forall in Hsteps. apply elem_of_list_In in Ht.
      specialize (Hsteps _ Ht). rewrite forallb_forall in Hsteps. specialize (Hsteps (byte_of c)).
      rewrite <-elem_of_list_In in Hsteps. specialize (Hsteps (byte_values_all c)). simpl in Hsteps.
      rewrite Es in Hsteps. destruct (safe (inv q) acts) as [b'|] eqn:Ef; [|done].
      destruct (Hsafe _ _ _ c p mem Ef HJ) as (mem' & -> & HJ'). apply IH.
      destruct (inv q'); simpl in Hsteps; [by subst b'|]. destruct b'; [by apply J_weaken|done].
  Qed.
End no_crash.
(** Machines whose actions are all in a set. *)
Definition within (ok : action → bool) (b : bool) (acts : list action) : option bool :=
  if forallb ok acts then Some b else None.
Lemma within_do {M} (act : semantics M) ok acts b b' c p mem :
  (∀ a p mem, ok a = true → is_Some (act a c p mem)) → within ok b acts = Some b' →
  is_Some (do_all act acts c p mem).
Proof.
  intros Hok. unfold within. destruct (forallb ok acts) eqn:E; [|done]. intros _. revert mem.
  induction acts as [|a acts IH]; intros mem; simpl; [done|]. simpl in E. apply andb_true_iff in E as [Ea E].
  destruct (Hok a p mem Ea) as [mem' ->]. by apply IH.
Qed.
Definition fk_ok (a : action) : bool :=
  match a with
  | FkColumn | FkReferenced | FkMatch | FkOnDelete | FkOnUpdate | FkTable | FkDeferrable | FkDeferred => true
  | _ => false
  end.
Definition tg_ok (a : action) : bool :=
  match a with
  | TgColumn | TgFunction | TgName | TgTable | TgWhen | TgConstraint | TgDeferrable | TgDeferred | TgEachRow
  | TgDelete | TgInsert | TgTruncate | TgUpdate => true
  | _ => false
  end.
Definition ck_ok (a : action) : bool :=
  match a with SetMark1 | SetMark2 | CheckDeferrable | CheckDeferred => true | _ => false end.
Definition or_buffer (ok : action → bool) (a : action) : bool := match a with AddToBuffer => true | _ => ok a end.
Lemma result_crash {A} (o : outcome (string * A)) : result o = Crash ↔ o = Crash.
Proof. by destruct o as [[]| |]. Qed.
Lemma foreign_key_no_crash s : parse_foreign_key s ≠ Crash.
Proof.
  unfold parse_foreign_key. rewrite result_crash.
  apply (run_no_crash _ _ (λ _, false) (within (or_buffer fk_ok)) (within fk_ok) (λ _ _, True)); [done| | |by vm_compute|by vm_compute|done].
  - intros b acts b' c p mem Hw _. destruct (within_do fk_act (or_buffer fk_ok) acts b b' (Some c) p mem) as [mem' E]; [|done|by exists mem'].
    intros [] ? [] H; (done || by eexists).
  - intros b acts b' p mem Hw _ E. destruct (within_do fk_act fk_ok acts b b' None p mem) as [mem' E']; [|done|congruence].
    intros [] ? [] H; (done || by eexists).
Qed.
Lemma trigger_no_crash s : parse_trigger s ≠ Crash.
Proof.
  unfold parse_trigger. rewrite result_crash.
  apply (run_no_crash _ _ (λ _, false) (within (or_buffer tg_ok)) (within tg_ok) (λ _ _, True)); [done| | |by vm_compute|by vm_compute|done].
  - intros b acts b' c p mem Hw _. destruct (within_do tg_act (or_buffer tg_ok) acts b b' (Some c) p mem) as [mem' E]; [|done|by exists mem'].
    intros [] ? [] H; (done || by eexists).
  - intros b acts b' p mem Hw _ E. destruct (within_do tg_act tg_ok acts b b' None p mem) as [mem' E']; [|done|congruence].
    intros [] ? [] H; (done || by eexists).
Qed.
(** For indexes the flag says that there is a key. *)
Fixpoint ix_safe (eof : bool) (b : bool) (acts : list action) : option bool :=
  match acts with
  | [] => Some b
  | a :: acts =>
      match a with
      | AddToBuffer => if eof then None else ix_safe eof b acts
      | IxColumn | IxExpression => ix_safe eof true acts
      | IxName | IxTable | IxUsing | IxWhere | IxUnique => ix_safe eof b acts
      | IxOpClass => if b then ix_safe eof b acts else None
      | _ => None
      end
  end.
(** States only reachable after the first key. *)
Definition keyed (q : N) : bool :=
  mem N.eqb q [26; 27; 28; 29; 30; 31; 32; 33; 34; 35; 36; 53; 54; 55]%N.
Definition has_key (b : bool) (mem : string * index) : Prop := b = true → ix_keys mem.2 ≠ [].
Lemma ix_safe_do eof acts b b' c p mem :
  (eof = false → is_Some c) → ix_safe eof b acts = Some b' → has_key b mem →
  ∃ mem', do_all ix_act acts c p mem = Some mem' ∧ has_key b' mem'.
Proof.
  intros Hc. revert b mem. induction acts as [|a acts IH]; intros b [s i] H HJ.
  - simpl in H. injection H as <-. by exists (s, i).
  - destruct a; cbn [ix_safe] in H; try done; cbn [do_all ix_act];
      try (eapply IH; [exact H|intros Hb; by apply HJ]).
    + destruct eof; [done|]. destruct (Hc eq_refl) as [d ->]. eapply IH; [exact H|]. intros Hb. by apply HJ.
    + eapply IH; [exact H|]. intros _. simpl. by destruct (ix_keys i).
    + eapply IH; [exact H|]. intros _. simpl. by destruct (ix_keys i).
    + destruct b; [|done]. unfold ix_set_op_class. specialize (HJ eq_refl). simpl in HJ.
      destruct (list.last (ix_keys i)) as [k|] eqn:El; [|by apply last_None in El].
      eapply IH; [exact H|]. intros _. simpl. by destruct (List.removelast (ix_keys i)).
Qed.
Lemma index_no_crash s : parse_index s ≠ Crash.
Proof.
  unfold parse_index. rewrite result_crash.
  apply (run_no_crash _ _ keyed (ix_safe false) (ix_safe true) has_key);
    [done| | |by vm_compute|by vm_compute|done].
  - intros b acts b' c p mem H HJ. by eapply (ix_safe_do false).
  - intros b acts b' p mem H HJ E. destruct (ix_safe_do true acts b b' None p mem) as (mem' & E' & _); try done. congruence.
Qed.

(** * The traces of ParseCheck *)
Fixpoint path (m : machine) (q : N) (w : string) : option (trace * N) :=
  match w with
  | "" => Some ([], q)
  | String c w =>
      match step m q (byte_of c) with
      | None => None
      | Some (n, q') => match path m q' w with Some (t, q2) => Some ((A <$> n) ++ B c :: t, q2) | None => None end
      end
  end.
Fixpoint only (f : action → bool) (t : trace) : trace :=
  match t with
  | [] => []
  | A a :: t => if f a then A a :: only f t else only f t
  | B c :: t => B c :: only f t
  end.
Fixpoint occurs (a : action) (t : trace) : bool :=
  match t with [] => false | A b :: t => act_eqb a b || occurs a t | B _ :: t => occurs a t end.
Lemma only_acts f n t : only f ((A <$> n) ++ t) = (A <$> List.filter f n) ++ only f t.
Proof.
  induction n as [|a n IH]; [done|]. change ((A <$> a :: n) ++ t) with (A a :: (A <$> n) ++ t). simpl.
  rewrite IH. by destruct (f a).
Qed.
Lemma occurs_acts a n t : occurs a ((A <$> n) ++ t) = existsb (act_eqb a) n || occurs a t.
Proof.
  induction n as [|b n IH]; [done|]. change ((A <$> b :: n) ++ t) with (A b :: (A <$> n) ++ t). simpl.
  rewrite IH. by rewrite orb_assoc.
Qed.
Lemma tr_final q w : tr check_final_td q w =
  match path check_machine q w with
  | Some (t, q') => if (q' <? 56)%N then None else Some (only (λ _, false) t) | None => None end.
Proof.
  revert q. induction w as [|c w IH]; intros q; cbn [tr path check_final_td td_end td_step].
  - by destruct (q <? 56)%N.
  - destruct (step check_machine q (byte_of c)) as [[n q']|]; [|done]. rewrite IH.
    destruct (path check_machine q' w) as [[t q2]|]; [|done]. destruct (q2 <? 56)%N; [done|].
    rewrite only_acts. assert (List.filter (λ _, false) n = []) as -> by by induction n. done.
Qed.
Lemma tr_marks q w : tr check_marks_td q w =
  match path check_machine q w with
  | Some (t, q') => if (q' <? 7)%N then None else Some (only is_mark t) | None => None end.
Proof.
  revert q. induction w as [|c w IH]; intros q; cbn [tr path check_marks_td td_end td_step].
  - by destruct (q <? 7)%N.
  - destruct (step check_machine q (byte_of c)) as [[n q']|]; [|done]. rewrite IH.
    destruct (path check_machine q' w) as [[t q2]|]; [|done]. destruct (q2 <? 7)%N; [done|].
    by rewrite only_acts.
Qed.
Lemma tr_flag a q b w : tr (check_flag_td a) (q, b) w =
  match path check_machine q w with
  | Some (t, q') => if b || occurs a t then Some (only (λ _, false) t) else None | None => None end.
Proof.
  revert q b. induction w as [|c w IH]; intros q b; cbn [tr path check_flag_td td_end td_step].
  - simpl. rewrite orb_false_r. by destruct b.
  - destruct (step check_machine q (byte_of c)) as [[n q']|]; [|done]. rewrite IH.
    destruct (path check_machine q' w) as [[t q2]|]; [|done]. rewrite occurs_acts. simpl. rewrite orb_assoc.
    destruct ((b || existsb (act_eqb a) n) || occurs a t); [|done].
    rewrite only_acts. assert (List.filter (λ _, false) n = []) as -> by by induction n. done.
Qed.
Lemma check_run q p mem w v :
  run check_machine check_act q p mem w = Parsed v ↔
  ∃ t q', path check_machine q w = Some (t, q') ∧ (56 ≤ q')%N ∧ exec check_act p t mem = Some v.
Proof.
  revert q p mem. induction w as [|c w IH]; intros q p mem; cbn [run path].
  - change (at_eof check_machine q) with (@nil action). cbn [do_all]. change (ma_final check_machine) with 56%N.
    destruct (N.ltb_spec q 56).
    + split; [done|]. intros (t & q' & [= <- <-] & Hq & _). lia.
    + split; [intros [= ->]; by exists [], q|]. by intros (t & q' & [= <- <-] & Hq & [= ->]).
  - destruct (step check_machine q (byte_of c)) as [[n q']|]; [|split; [done|by intros (? & ? & ? & _)]].
    destruct (do_all check_act n (Some c) p mem) as [mem'|] eqn:Ed.
    + rewrite IH. split.
      * intros (t & q2 & -> & Hq & E). exists ((A <$> n) ++ B c :: t), q2. split; [done|]. split; [done|].
        rewrite exec_acts. cbn [next exec]. by rewrite Ed.
      * intros (t & q2 & Hp & Hq & E). destruct (path check_machine q' w) as [[t' q3]|]; [|done].
        injection Hp as <- <-. exists t', q3. split; [done|]. split; [done|]. rewrite exec_acts in E.
        cbn [next exec] in E. by rewrite Ed in E.
    + split; [done|]. intros (t & q2 & Hp & Hq & E). destruct (path check_machine q' w) as [[t' q3]|]; [|done].
      injection Hp as <- <-. rewrite exec_acts in E. cbn [next exec] in E. by rewrite Ed in E.
Qed.
(** The actions of the machine are its own. *)
Lemma check_steps_ok q c n q' : step check_machine q c = Some (n, q') → forallb ck_ok n = true.
Proof.
  intros H. unfold step in H. destruct (find q (ma_states check_machine)) as [t|]; [|done].
  destruct (decision c t) as [k|k]; [by destruct (k =? 0)%N; simplify_eq|].
  destruct (find k (ma_trs check_machine)) as [[acts n']|] eqn:E; [|done]. destruct (n' =? 0)%N; [done|].
  injection H as <- <-. apply find_In in E.
  assert (Forall (λ x, forallb ck_ok x.2.1 = true) (ma_trs check_machine)) as Hall
    by (apply (bool_decide_unpack _); by vm_compute).
  rewrite list.Forall_forall in Hall. exact (Hall _ E).
Qed.
Fixpoint all_ok (t : trace) : bool := match t with [] => true | A a :: t => ck_ok a && all_ok t | B _ :: t => all_ok t end.
Lemma all_ok_acts n t : all_ok ((A <$> n) ++ t) = forallb ck_ok n && all_ok t.
Proof.
  induction n as [|b n IH]; [done|]. change ((A <$> b :: n) ++ t) with (A b :: (A <$> n) ++ t). simpl.
  rewrite IH. by rewrite andb_assoc.
Qed.
Lemma path_ok q w t q' : path check_machine q w = Some (t, q') → all_ok t = true.
Proof.
  revert q t. induction w as [|c w IH]; intros q t H; cbn [path] in H; [by injection H as <- <-|].
  destruct (step check_machine q (byte_of c)) as [[n q2]|] eqn:E; [|done].
  destruct (path check_machine q2 w) as [[t' q3]|] eqn:Ep; [|done]. injection H as <- <-.
  rewrite all_ok_acts, (check_steps_ok _ _ _ _ E). simpl. by eapply IH.
Qed.
(** The last position at which an action was executed. *)
Fixpoint position (a : action) (p : Z) (t : trace) (d : Z) : Z :=
  match t with
  | [] => d
  | A b :: t => position a p t (if act_eqb a b then p else d)
  | B _ :: t => position a (p + 1) t d
  end.
Lemma exec_check p t m1 m2 d f :
  all_ok t = true →
  exec check_act p t (CheckVars m1 m2 d f) =
  Some (CheckVars (position SetMark1 p t m1) (position SetMark2 p t m2)
    (d || occurs CheckDeferrable t) (f || occurs CheckDeferred t)).
Proof.
  revert p m1 m2 d f. induction t as [|[a|c] t IH]; intros p m1 m2 d f H; cbn [exec].
  - simpl. by rewrite !orb_false_r.
  - simpl in H. apply andb_true_iff in H as [Ha H].
    destruct a; try done; cbn [check_act cv_mark1 cv_mark2 cv_deferrable cv_deferred];
      rewrite IH by done; cbn [position occurs]; cbn; rewrite ?orb_true_r; done.
  - rewrite IH by done. done.
Qed.
Lemma position_only a p t d : is_mark a = true → position a p (only is_mark t) d = position a p t d.
Proof.
  intros Ha. revert p d. induction t as [|[b|c] t IH]; intros p d; simpl; [done| |by rewrite IH].
  destruct (is_mark b) eqn:Hb; simpl; [by rewrite IH|]. rewrite IH.
  assert (act_eqb a b = false) as ->; [|done]. unfold act_eqb. apply bool_decide_eq_false_2. intros ->. congruence.
Qed.
Lemma bytes_only f t : bytes (only f t) = bytes t.
Proof. induction t as [|[a|c] t IH]; simpl; [done|destruct (f a); done|by rewrite IH]. Qed.

(** The four expressions. *)
Lemma check_checked : Re.check check_final_td N.eqb 5000 1%N g_check = true.
Proof. by vm_compute. Qed.
Lemma marks_checked : Re.check check_marks_td N.eqb 5000 1%N g_marks = true.
Proof. by vm_compute. Qed.
Lemma deferrable_checked : Re.check (check_flag_td CheckDeferrable) nb_eqb 5000 (1%N, false) g_deferrable = true.
Proof. by vm_compute. Qed.
Lemma deferred_checked : Re.check (check_flag_td CheckDeferred) nb_eqb 5000 (1%N, false) g_deferred = true.
Proof. by vm_compute. Qed.
Lemma nb_eqb_eq x y : nb_eqb x y = true → x = y.
Proof.
  destruct x as [n b], y as [n' b']. unfold nb_eqb. simpl. intros [H1%N.eqb_eq H2]%andb_true_iff.
  destruct b, b'; by subst.
Qed.
Lemma N_eqb_eq x y : N.eqb x y = true → x = y.
Proof. apply N.eqb_eq. Qed.
Definition spells (r : re) (s : string) : Prop := ∃ t, lang r t ∧ bytes t = s.
Lemma accepted_iff s : (∃ t q', path check_machine 1 s = Some (t, q') ∧ (56 ≤ q')%N) ↔ spells g_check s.
Proof.
  pose proof (check_sound check_final_td N.eqb N_eqb_eq 5000 1%N g_check check_checked s) as Hs.
  rewrite tr_final in Hs. split.
  - intros (t & q' & Hp & Hq). rewrite Hp in Hs. destruct (N.ltb_spec q' 56); [lia|].
    destruct (proj1 (Hs _) eq_refl) as [Hl Hb]. by exists (only (λ _, false) t).
  - intros (t & Hl & Hb). specialize (proj2 (Hs t) (conj Hl Hb)).
    destruct (path check_machine 1 s) as [[t' q']|]; [|done]. destruct (N.ltb_spec q' 56); [done|]. intros _. by exists t', q'.
Qed.
Lemma flag_iff a r s t q' :
  Re.check (check_flag_td a) nb_eqb 5000 (1%N, false) r = true →
  path check_machine 1 s = Some (t, q') → occurs a t = true ↔ spells r s.
Proof.
  intros Hc Hp. pose proof (check_sound (check_flag_td a) nb_eqb nb_eqb_eq 5000 (1%N, false) r Hc s) as Hs.
  rewrite tr_flag, Hp in Hs. simpl in Hs. split.
  - intros Ho. rewrite Ho in Hs. destruct (proj1 (Hs _) eq_refl) as [Hl Hb]. by eexists.
  - intros (t' & Hl & Hb). specialize (proj2 (Hs t') (conj Hl Hb)). by destruct (occurs a t).
Qed.
