(** From machines to grammars: generic part. *)
From Coq Require Import String Ascii.
From stdpp Require Import prelude strings.
From Verif Require Import GoStrings GoStringsProofs GoUtf8 GoUtf8Proofs DdlModel DdlSpec DdlProofs
  MachineModel MachineTables Re ParseGrammar ParseModel ParseSpec ParseText.
Local Open Scope Z_scope.

(** * Executing a trace *)
Fixpoint next (t : trace) : option ascii :=
  match t with [] => None | B c :: _ => Some c | A _ :: t => next t end.
Fixpoint exec {M} (act : semantics M) (p : Z) (t : trace) (mem : M) : option M :=
  match t with
  | [] => Some mem
  | B _ :: t => exec act (p + 1) t mem
  | A a :: t => match act a (next t) p mem with Some mem => exec act p t mem | None => None end
  end.
Lemma next_acts n t : next ((A <$> n) ++ t) = next t.
Proof. induction n as [|a n IH]; [done|]. exact IH. Qed.
Lemma exec_acts {M} (act : semantics M) n t p mem :
  exec act p ((A <$> n) ++ t) mem =
  match do_all act n (next t) p mem with Some mem => exec act p t mem | None => None end.
Proof.
  revert mem. induction n as [|a n IH]; intros mem; [done|].
  change ((A <$> a :: n) ++ t) with (A a :: (A <$> n) ++ t). cbn [exec do_all]. rewrite next_acts.
  destruct (act a (next t) p mem); [apply IH|done].
Qed.
Lemma run_tr {M} m (act : semantics M) q p mem w :
  match tr (machine_td m) q w with
  | Some t => run m act q p mem w = match exec act p t mem with Some mem => Parsed mem | None => Crash end
  | None => ∀ v, run m act q p mem w ≠ Parsed v
  end.
Proof.
  revert q p mem. induction w as [|c w IH]; intros q p mem; cbn [tr run machine_td td_end td_step].
  - destruct (q <? ma_final m)%N.
    + intros v. by destruct (do_all _ _ _ _ _).
    + pose proof (exec_acts act (at_eof m q) [] p mem) as E. rewrite app_nil_r in E. rewrite E. simpl.
      by destruct (do_all _ _ _ _ _).
  - destruct (step m q (byte_of c)) as [[n q']|]; [|done].
    destruct (tr (machine_td m) q' w) as [t|] eqn:Ht.
    + rewrite exec_acts. cbn [next exec]. destruct (do_all act n (Some c) p mem) as [mem'|]; [|done].
      specialize (IH q' (p + 1) mem'). by rewrite Ht in IH.
    + intros v. destruct (do_all act n (Some c) p mem) as [mem'|]; [|done].
      specialize (IH q' (p + 1) mem'). rewrite Ht in IH. apply IH.
Qed.
(** A machine that has been checked against an expression. *)
Lemma parse_traces {M} m (act : semantics M) r fuel mem w v :
  check (machine_td m) N.eqb fuel 1%N r = true →
  run m act 1 0 mem w = Parsed v ↔ ∃ t, lang r t ∧ bytes t = w ∧ exec act 0 t mem = Some v.
Proof.
  intros Hc. pose proof (check_sound (machine_td m) N.eqb (λ x y H, proj1 (N.eqb_eq x y) H) fuel 1%N r Hc w) as Hs.
  pose proof (run_tr m act 1%N 0 mem w) as Hr. destruct (tr (machine_td m) 1%N w) as [t|] eqn:Ht.
  - destruct (proj1 (Hs t) eq_refl) as [Hl Hb]. rewrite Hr. split.
    + destruct (exec act 0 t mem) as [v'|] eqn:E; [|done]. intros [= ->]. by exists t.
    + intros (t' & Hl' & Hb' & E). assert (Some t = Some t') as [= ->] by by apply Hs. by rewrite E.
  - split; [by intros ?%Hr|]. intros (t' & Hl' & Hb' & _).
    assert (None = Some t') as H1 by by apply Hs. congruence.
Qed.

(** * Expressions whose effect depends on the text alone *)
Section text.
  Context {M : Type} (act : semantics M) (g : string → M → M).
  Context (act_pos : ∀ a c p p' m, act a c p m = act a c p' m).
  Context (g_nil : ∀ m, g "" m = m) (g_app : ∀ s s' m, g (s +:+ s') m = g s' (g s m)).
  Lemma exec_pos t p p' m : exec act p t m = exec act p' t m.
  Proof.
    revert p p' m. induction t as [|[a|c] t IH]; intros p p' m; simpl; [done| |apply IH].
    rewrite (act_pos a _ p p'). destruct (act a (next t) p' m); [apply IH|done].
  Qed.
  Definition does (t : trace) (f : M → M) : Prop :=
    ∀ t' m, exec act 0 (t ++ t') m = exec act 0 t' (f m).
  Definition texts (r : re) (P : string → Prop) : Prop :=
    (∀ t, lang r t → P (bytes t) ∧ does t (g (bytes t))) ∧ (∀ s, P s → ∃ t, lang r t ∧ bytes t = s).
  Lemma texts_iff r P Q : texts r P → (∀ s, P s ↔ Q s) → texts r Q.
  Proof.
    intros [H1 H2] HPQ. split.
    - intros t Ht. destruct (H1 t Ht). split; [by apply HPQ|done].
    - intros s Hs. apply H2, HPQ, Hs.
  Qed.
  Lemma texts_eps : texts Eps (eq "").
  Proof.
    split.
    - intros t ->. split; [done|]. intros t' m. simpl. by rewrite g_nil.
    - intros s <-. by exists [].
  Qed.
  Lemma texts_seq r s P Q :
    texts r P → texts s Q → texts (Seq r s) (λ x, ∃ x1 x2, x = x1 +:+ x2 ∧ P x1 ∧ Q x2).
  Proof.
    intros [H1 H2] [K1 K2]. split.
    - intros t (t1 & t2 & -> & Ht1 & Ht2). destruct (H1 t1 Ht1) as [Hp Hd]. destruct (K1 t2 Ht2) as [Kp Kd].
      rewrite bytes_app. split; [by exists (bytes t1), (bytes t2)|]. intros t' m.
      by rewrite <-app_assoc, Hd, Kd, g_app.
    - intros x (x1 & x2 & -> & Hp & Hq). destruct (H2 _ Hp) as (t1 & Hl1 & <-).
      destruct (K2 _ Hq) as (t2 & Hl2 & <-). exists (t1 ++ t2). rewrite bytes_app. split; [by exists t1, t2|done].
  Qed.
  Lemma texts_alt r s P Q : texts r P → texts s Q → texts (Alt r s) (λ x, P x ∨ Q x).
  Proof.
    intros [H1 H2] [K1 K2]. split.
    - intros t [Ht|Ht]; [destruct (H1 t Ht)|destruct (K1 t Ht)]; (split; [by (left + right)|done]).
    - intros x [Hx|Hx]; [destruct (H2 x Hx) as (t & ? & ?)|destruct (K2 x Hx) as (t & ? & ?)]; exists t;
        (split; [by (left + right)|done]).
  Qed.
  Lemma texts_star r P :
    texts r P → texts (Star r) (λ x, ∃ l, x = String.concat "" l ∧ Forall P l).
  Proof.
    intros [H1 H2]. split.
    - intros t (l & -> & Hl). induction Hl as [|t l Ht Hl [(k & Hk & Hf) IHd]].
      + split; [by exists []|]. intros t' m. simpl. by rewrite g_nil.
      + destruct (H1 t Ht) as [Hp Hd]. simpl. rewrite bytes_app. split.
        * exists (bytes t :: k). rewrite concat_cons, Hk. split; [done|by constructor].
        * intros t' m. by rewrite <-app_assoc, Hd, IHd, g_app.
    - intros x (l & -> & Hl). induction Hl as [|x l Hx Hl (t & (k & -> & Hk) & Ht)].
      + exists []. split; [by exists []|done].
      + destruct (H2 x Hx) as (t & Hlt & <-). exists (t ++ concat k). rewrite bytes_app, concat_cons, Ht.
        split; [|done]. exists (t :: k). split; [done|by constructor].
  Qed.
  (** One byte. *)
  Context (unit_re : cls → re) (texts_unit : ∀ l, texts (unit_re l) (λ s, ∃ c, s = String c "" ∧ in_cls (byte_of c) l = true)).
  Lemma concat_bytes (P : ascii → Prop) s :
    (∃ l, s = String.concat "" l ∧ Forall (λ x, ∃ c, x = String c "" ∧ P c) l) ↔ all_bytes P s.
  Proof.
    split.
    - intros (l & -> & Hl). induction Hl as [|x l (c & -> & Hc) _ IH]; [by intros d ?%has_byte_nil|].
      rewrite concat_cons, app_str_cons. intros d [<-|H]%has_byte_cons; [done|]. by apply IH.
    - induction s as [|c s IH]; intros H; [by exists []|].
      destruct IH as (l & Hl & Hf); [intros d Hd; apply H, has_byte_cons; by right|].
      exists (String c "" :: l). rewrite concat_cons, <-Hl. split; [done|]. constructor; [|done].
      exists c. split; [done|]. apply H, has_byte_cons. by left.
  Qed.
  Lemma texts_bytes l (P : ascii → Prop) :
    (∀ c, in_cls (byte_of c) l = true ↔ P c) → texts (Star (unit_re l)) (all_bytes P).
  Proof.
    intros HP. eapply texts_iff; [apply texts_star, texts_unit|]. intros s. rewrite <-concat_bytes. split.
    - intros (k & Hk & Hf). exists k. split; [done|]. eapply Forall_impl; [done|]. intros x (c & -> & Hc). exists c.
      split; [done|]. by apply HP.
    - intros (k & Hk & Hf). exists k. split; [done|]. eapply Forall_impl; [done|]. intros x (c & -> & Hc). exists c.
      split; [done|]. by apply HP.
  Qed.
  Lemma texts_bytes1 l (P : ascii → Prop) :
    (∀ c, in_cls (byte_of c) l = true ↔ P c) →
    texts (plus (unit_re l)) (λ s, s ≠ "" ∧ all_bytes P s).
  Proof.
    intros HP. eapply texts_iff; [apply texts_seq; [apply texts_unit|by apply (texts_bytes l P)]|]. intros s. split.
    - intros (x1 & x2 & -> & (c & -> & Hc) & H). split; [done|]. intros d.
      change (String c "" +:+ x2) with (String c x2). intros [<-|Hd]%has_byte_cons; [by apply HP|by apply H].
    - intros [Hne H]. destruct s as [|c s]; [done|]. exists (String c ""), s. split; [done|]. split.
      + exists c. split; [done|]. apply HP, H, has_byte_cons. by left.
      + intros d Hd. apply H, has_byte_cons. by right.
  Qed.
  Lemma texts_word f k :
    (∀ c, f c = unit_re [(byte_of c, byte_of c); (byte_of c + 32, byte_of c + 32)]) → texts (word f k) (spelled k).
  Proof.
    intros Hf. induction k as [|c k IH].
    - eapply texts_iff; [apply texts_eps|]. intros [|d s]; simpl; split; done.
    - cbn [word]. rewrite Hf. eapply texts_iff; [apply texts_seq; [apply texts_unit|exact IH]|]. intros s. split.
      + intros (x1 & x2 & -> & (d & -> & Hd) & H). change (String d "" +:+ x2) with (String d x2). cbn [spelled].
        split; [|done]. simpl in Hd. rewrite orb_false_r in Hd. apply orb_true_iff in Hd as [Hd|Hd];
          apply andb_true_iff in Hd as [?%Z.leb_le ?%Z.leb_le]; lia.
      + destruct s as [|d s]; [done|]. cbn [spelled]. intros [Hd H]. exists (String d ""), s. split; [done|].
        split; [|done]. exists d. split; [done|]. simpl. rewrite orb_false_r. apply orb_true_iff.
        destruct Hd as [Hd|Hd]; [left|right]; apply andb_true_iff; split; apply Z.leb_le; lia.
  Qed.
End text.

(** * Classes of bytes *)
Lemma in_space c : in_cls (byte_of c) c_space = true ↔ space_byte c.
Proof. unfold space_byte. cbn [in_cls c_space]. rewrite !orb_true_iff, !andb_true_iff, !Z.leb_le. intuition (done || lia). Qed.
Lemma in_letter c : in_cls (byte_of c) c_letter = true ↔ letter_byte c.
Proof. unfold letter_byte. cbn [in_cls c_letter]. rewrite !orb_true_iff, !andb_true_iff, !Z.leb_le. intuition done. Qed.
Lemma in_name c : in_cls (byte_of c) c_name = true ↔ name_byte c.
Proof. unfold name_byte, letter_byte. cbn [in_cls c_name]. rewrite !orb_true_iff, !andb_true_iff, !Z.leb_le. intuition (done || lia). Qed.
Lemma in_not_close c : in_cls (byte_of c) c_not_close = true ↔ not_close c.
Proof.
  unfold not_close. cbn [in_cls c_not_close]. rewrite !orb_true_iff, !andb_true_iff, !Z.leb_le.
  pose proof (byte_of_range c). intuition (done || lia).
Qed.
Lemma in_any c : in_cls (byte_of c) c_any = true ↔ True.
Proof. cbn [in_cls c_any]. rewrite orb_true_iff, andb_true_iff, !Z.leb_le. pose proof (byte_of_range c). intuition (done || lia). Qed.
Lemma in_one c d : in_cls (byte_of c) [(byte_of d, byte_of d)] = true ↔ c = d.
Proof.
  cbn [in_cls]. rewrite orb_true_iff, andb_true_iff, !Z.leb_le. split.
  - intros [H|H]; [|done]. apply byte_of_inj. lia.
  - intros ->. left. lia.
Qed.

(** * Expressions that implement a syntactic category *)
Definition skips {V} (_ : string) (m : string * V) : string * V := m.
Definition stores {V} (s : string) (m : string * V) : string * V := (m.1 +:+ s, m.2).
Definition marks {V} (f : V → V) (s : string) (m : string * V) : string * V :=
  match s with "" => m | _ => (m.1, f m.2) end.
Section impl.
  Context {V : Type} (act : semantics (string * V)).
  Context (act_pos : ∀ a c p p' m, act a c p m = act a c p' m).
  Context (act_add : ∀ c b v, act AddToBuffer (Some c) 0 (b, v) = Some (push c b, v)).
  Notation skip := (texts act skips).
  Notation store := (texts act stores).
  Notation mark f := (texts act (marks f)).
  Definition eff (t : trace) (f : V → V) : Prop := ∀ t' v, exec act 0 (t ++ t') ("", v) = exec act 0 t' ("", f v).
  Definition impl {A} (r : re) (p : reads A) (e : A → V → V) : Prop :=
    (∀ t, lang r t → ∃ a, p (bytes t) a ∧ eff t (e a)) ∧
    (∀ s a, p s a → ∃ t, lang r t ∧ bytes t = s ∧ eff t (e a)).

  (** Single bytes. *)
  Lemma skip_cls l : skip (Cls l) (λ s, ∃ c, s = String c "" ∧ in_cls (byte_of c) l = true).
  Proof.
    split.
    - intros t (c & -> & Hc). split; [by exists c|]. intros t' m. simpl. by apply exec_pos.
    - intros s (c & -> & Hc). exists [B c]. split; [by exists c|done].
  Qed.
  Lemma store_cls l : store (buf l) (λ s, ∃ c, s = String c "" ∧ in_cls (byte_of c) l = true).
  Proof.
    split.
    - intros t (t1 & t2 & -> & Ht1 & c & -> & Hc). simpl in Ht1. subst t1. split; [by exists c|]. intros t' [b v].
      change (([A AddToBuffer] ++ [B c]) ++ t') with (A AddToBuffer :: B c :: t'). cbn [exec next].
      rewrite act_add. by apply exec_pos.
    - intros s (c & -> & Hc). exists [A AddToBuffer; B c]. split; [|done].
      exists [A AddToBuffer], [B c]. split; [done|]. split; [done|]. by exists c.
  Qed.
  Lemma mark_cls a f l :
    (∀ c b v, act a (Some c) 0 (b, v) = Some (b, f v)) →
    mark f (Seq (Act a) (Cls l)) (λ s, ∃ c, s = String c "" ∧ in_cls (byte_of c) l = true).
  Proof.
    intros Ha. split.
    - intros t (t1 & t2 & -> & Ht1 & c & -> & Hc). simpl in Ht1. subst t1. split; [by exists c|]. intros t' [b v].
      change (([A a] ++ [B c]) ++ t') with (A a :: B c :: t'). cbn [exec next].
      rewrite Ha. by apply exec_pos.
    - intros s (c & -> & Hc). exists [A a; B c]. split; [|done].
      exists [A a], [B c]. split; [done|]. split; [done|]. by exists c.
  Qed.
  Lemma skips_nil m : @skips V "" m = m. Proof. done. Qed.
  Lemma skips_app s s' (m : string * V) : skips (s +:+ s') m = skips s' (skips s m). Proof. done. Qed.
  Lemma stores_nil m : @stores V "" m = m.
  Proof. destruct m as [b v]. unfold stores. simpl. by rewrite app_str_nil_r. Qed.
  Lemma stores_app s s' (m : string * V) : stores (s +:+ s') m = stores s' (stores s m).
  Proof. destruct m as [b v]. unfold stores. simpl. by rewrite app_str_assoc. Qed.
  Lemma marks_app f s s' (m : string * V) :
    (∀ v, f (f v) = f v) → marks f (s +:+ s') m = marks f s' (marks f s m).
  Proof.
    intros Hf. destruct m as [b v]. destruct s as [|c s]; [done|]. rewrite app_str_cons. simpl.
    destruct s' as [|c' s']; [done|]. simpl. by rewrite Hf.
  Qed.

  (** From texts to categories. *)
  Lemma impl_skip {A} r P (a : A) e : skip r P → (∀ v, e a v = v) → impl r (is P a) e.
  Proof.
    intros [H1 H2] He. split.
    - intros t Ht. destruct (H1 t Ht) as [Hp Hd]. exists a. split; [done|]. intros t' v. rewrite Hd, He. done.
    - intros s a' [Hs ->]. destruct (H2 s Hs) as (t & Hl & Hb). exists t. split; [done|]. split; [done|].
      destruct (H1 t Hl) as [_ Hd]. intros t' v. by rewrite Hd, He.
  Qed.
  (** Buffered text used by an action. *)
  Lemma impl_field {X} r P k (f : string → V → V) (p : reads X) e :
    store r P → (∀ c b v, act k c 0 (b, v) = Some ("", f b v)) →
    (∀ s, P s → ∃ a, p s a ∧ ∀ v, e a v = f s v) →
    (∀ s a, p s a → P s ∧ ∀ v, e a v = f s v) →
    impl (Seq r (Act k)) p e.
  Proof.
    intros [H1 H2] Hk Hp1 Hp2.
    assert (∀ t, lang r t → P (bytes t) ∧ eff (t ++ [A k]) (f (bytes t))) as Hr.
    { intros t Ht. destruct (H1 t Ht) as [Hs Hd]. split; [done|]. intros t' v. rewrite <-app_assoc, Hd. simpl.
      unfold stores. by rewrite Hk. }
    split.
    - intros t (t1 & t2 & -> & Ht1 & Ht2). simpl in Ht2. subst t2. destruct (Hr t1 Ht1) as [Hs Hd].
      rewrite bytes_app. simpl. rewrite app_str_nil_r. destruct (Hp1 _ Hs) as (a & Ha & He). exists a.
      split; [done|]. intros t' v. by rewrite Hd, He.
    - intros s a Ha. destruct (Hp2 s a Ha) as [Hs He]. destruct (H2 s Hs) as (t & Hl & Hb). subst s.
      exists (t ++ [A k]). split; [by exists t, [A k]|]. rewrite bytes_app. simpl. rewrite app_str_nil_r.
      split; [done|]. intros t' v. destruct (Hr t Hl) as [_ Hd]. by rewrite Hd, He.
  Qed.
  (** Text repeatedly marked by an action. *)
  Lemma impl_marks {A} f r P (a : A) e :
    mark f r P → (∀ s, P s → s ≠ "") → (∀ v, e a v = f v) → impl r (is P a) e.
  Proof.
    intros [H1 H2] Hne He.
    assert (∀ t, lang r t → P (bytes t) ∧ eff t f) as Hr.
    { intros t Ht. destruct (H1 t Ht) as [Hp Hd]. split; [done|]. intros t' v. rewrite Hd. unfold marks.
      specialize (Hne _ Hp). by destruct (bytes t). }
    split.
    - intros t Ht. destruct (Hr t Ht) as [Hp Hd]. exists a. split; [done|]. intros t' v. by rewrite Hd, He.
    - intros s a' [Hs ->]. destruct (H2 s Hs) as (t & Hl & Hb). exists t. split; [done|]. split; [done|].
      destruct (Hr t Hl) as [_ Hd]. intros t' v. by rewrite Hd, He.
  Qed.

  (** Composition. *)
  Lemma eff_app t1 t2 f1 f2 : eff t1 f1 → eff t2 f2 → eff (t1 ++ t2) (λ v, f2 (f1 v)).
  Proof. intros H1 H2 t' v. by rewrite <-app_assoc, H1, H2. Qed.
  Lemma eff_ext t f f' : eff t f → (∀ v, f v = f' v) → eff t f'.
  Proof. intros H E t' v. by rewrite H, E. Qed.
  Lemma impl_both {A B} r s (p : reads A) (q : reads B) e1 e2 :
    impl r p e1 → impl s q e2 → impl (Seq r s) (p ** q) (λ ab v, e2 ab.2 (e1 ab.1 v)).
  Proof.
    intros [H1 H2] [K1 K2]. split.
    - intros t (t1 & t2 & -> & Ht1 & Ht2). destruct (H1 _ Ht1) as (a & Ha & Ea). destruct (K1 _ Ht2) as (b & Hb & Eb).
      exists (a, b). split; [|by apply eff_app]. rewrite bytes_app. by exists (bytes t1), (bytes t2).
    - intros x [a b] (x1 & x2 & -> & Ha & Hb). destruct (H2 _ _ Ha) as (t1 & Hl1 & <- & Ea).
      destruct (K2 _ _ Hb) as (t2 & Hl2 & <- & Eb). exists (t1 ++ t2). split; [by exists t1, t2|].
      split; [apply bytes_app|]. by apply (eff_app t1 t2 (e1 a) (e2 b)).
  Qed.
  Lemma impl_after {A B} r s (p : reads A) (q : reads B) e1 e2 :
    impl r p e1 → (∀ a v, e1 a v = v) → impl s q e2 → impl (Seq r s) (p >> q) e2.
  Proof.
    intros [H1 H2] He [K1 K2]. split.
    - intros t (t1 & t2 & -> & Ht1 & Ht2). destruct (H1 _ Ht1) as (a & Ha & Ea). destruct (K1 _ Ht2) as (b & Hb & Eb).
      exists b. split; [rewrite bytes_app; by exists (bytes t1), (bytes t2), a|].
      eapply eff_ext; [by apply (eff_app t1 t2 (e1 a) (e2 b))|]. intros v. simpl. by rewrite He.
    - intros x b (x1 & x2 & a & -> & Ha & Hb). destruct (H2 _ _ Ha) as (t1 & Hl1 & <- & Ea).
      destruct (K2 _ _ Hb) as (t2 & Hl2 & <- & Eb). exists (t1 ++ t2). split; [by exists t1, t2|].
      split; [apply bytes_app|]. eapply eff_ext; [by apply (eff_app t1 t2 (e1 a) (e2 b))|]. intros v. simpl. by rewrite He.
  Qed.
  Lemma impl_upto {A B} r s (p : reads A) (q : reads B) e1 e2 :
    impl r p e1 → impl s q e2 → (∀ b v, e2 b v = v) → impl (Seq r s) (p << q) e1.
  Proof.
    intros [H1 H2] [K1 K2] He. split.
    - intros t (t1 & t2 & -> & Ht1 & Ht2). destruct (H1 _ Ht1) as (a & Ha & Ea). destruct (K1 _ Ht2) as (b & Hb & Eb).
      exists a. split; [rewrite bytes_app; by exists (bytes t1), (bytes t2), b|].
      eapply eff_ext; [by apply (eff_app t1 t2 (e1 a) (e2 b))|]. intros v. simpl. by rewrite He.
    - intros x a (x1 & x2 & b & -> & Ha & Hb). destruct (H2 _ _ Ha) as (t1 & Hl1 & <- & Ea).
      destruct (K2 _ _ Hb) as (t2 & Hl2 & <- & Eb). exists (t1 ++ t2). split; [by exists t1, t2|].
      split; [apply bytes_app|]. eapply eff_ext; [by apply (eff_app t1 t2 (e1 a) (e2 b))|]. intros v. simpl. by rewrite He.
  Qed.
  Lemma impl_either {A} r s (p q : reads A) e : impl r p e → impl s q e → impl (Alt r s) (p <|> q) e.
  Proof.
    intros [H1 H2] [K1 K2]. split.
    - intros t [Ht|Ht]; [destruct (H1 _ Ht) as (a & Ha & Ea)|destruct (K1 _ Ht) as (a & Ha & Ea)]; exists a;
        (split; [by (left + right)|done]).
    - intros x a [Ha|Ha]; [destruct (H2 _ _ Ha) as (t & Hl & Hb & Ea)|destruct (K2 _ _ Ha) as (t & Hl & Hb & Ea)];
        exists t; (split; [by (left + right)|done]).
  Qed.
  Lemma eff_nil : eff [] (λ v, v). Proof. by intros t' v. Qed.
  Lemma impl_maybe {A} r (p : reads A) e :
    impl r p e → impl (opt r) (maybe p) (λ o v, match o with Some a => e a v | None => v end).
  Proof.
    intros [H1 H2]. split.
    - intros t [->|Ht]; [exists None; split; [by left|apply eff_nil]|].
      destruct (H1 _ Ht) as (a & Ha & Ea). exists (Some a). split; [right; by exists a|done].
    - intros x o [[-> ->]|(a & -> & Ha)]; [exists []; split; [by left|by split; [|apply eff_nil]]|].
      destruct (H2 _ _ Ha) as (t & Hl & Hb & Ea). exists t. split; [by right|done].
  Qed.
  Lemma impl_many {A} r (p : reads A) e :
    impl r p e → impl (Star r) (many p) (λ l v, foldl (λ v a, e a v) v l).
  Proof.
    intros [H1 H2]. split.
    - intros t (l & -> & Hl). induction Hl as [|t l Ht Hl (k & (ss & Hss & Hk) & Ek)].
      + exists []. split; [by exists []|apply eff_nil].
      + destruct (H1 _ Ht) as (a & Ha & Ea). exists (a :: k). split.
        * exists (bytes t :: ss). cbn [List.concat]. rewrite bytes_app, concat_cons, Hss. split; [done|by constructor].
        * simpl. by apply (eff_app t (concat l) (e a) (λ v, foldl (λ v a, e a v) v k)).
    - intros x k (ss & -> & Hk). induction Hk as [|s a ss k Ha Hk (t & (l & -> & Hl) & Hb & Ek)].
      + exists []. split; [by exists []|]. split; [done|apply eff_nil].
      + destruct (H2 _ _ Ha) as (t & Hlt & <- & Ea). exists (t ++ concat l). split; [|split].
        * exists (t :: l). split; [done|by constructor].
        * by rewrite bytes_app, concat_cons, Hb.
        * simpl. by apply (eff_app t (concat l) (e a) (λ v, foldl (λ v a, e a v) v k)).
  Qed.
  Lemma impl_giving {A B} r (p : reads A) (f : A → B) e1 e :
    impl r p e1 → (∀ a v, e1 a v = e (f a) v) → impl r (giving f p) e.
  Proof.
    intros [H1 H2] He. split.
    - intros t Ht. destruct (H1 _ Ht) as (a & Ha & Ea). exists (f a). split; [by exists a|].
      eapply eff_ext; [done|]. intros v. apply He.
    - intros x b (a & Ha & ->). destruct (H2 _ _ Ha) as (t & Hl & Hb & Ea). exists t. split; [done|]. split; [done|].
      eapply eff_ext; [done|]. intros v. apply He.
  Qed.
  Lemma impl_map {A B} r (p : reads A) (q : reads B) e1 e :
    impl r p e1 →
    (∀ s a, p s a → ∃ b, q s b ∧ ∀ v, e1 a v = e b v) →
    (∀ s b, q s b → ∃ a, p s a ∧ ∀ v, e1 a v = e b v) →
    impl r q e.
  Proof.
    intros [H1 H2] Hpq Hqp. split.
    - intros t Ht. destruct (H1 _ Ht) as (a & Ha & Ea). destruct (Hpq _ _ Ha) as (b & Hb & E). exists b.
      split; [done|]. by eapply eff_ext.
    - intros x b Hb. destruct (Hqp _ _ Hb) as (a & Ha & E). destruct (H2 _ _ Ha) as (t & Hl & Hbt & Ea).
      exists t. split; [done|]. split; [done|]. by eapply eff_ext.
  Qed.
  Lemma impl_ext {A} r (p : reads A) e e' : impl r p e → (∀ a v, e a v = e' a v) → impl r p e'.
  Proof. intros H E. eapply impl_map; [done| |]; intros s a Ha; exists a; (split; [done|]); intros v; apply E. Qed.

  (** The common pieces. *)
  Lemma impl_ows e : (∀ v, e () v = v) → impl g_ows ows e.
  Proof. apply impl_skip. apply (texts_bytes act skips skips_nil skips_app Cls skip_cls). apply in_space. Qed.
  Lemma impl_ws e : (∀ v, e () v = v) → impl g_ws ws e.
  Proof. apply impl_skip. apply (texts_bytes1 act skips skips_nil skips_app Cls skip_cls). apply in_space. Qed.
  Lemma impl_kw {A} k (a : A) e : (∀ v, e a v = v) → impl (kw k) (keyword k a) e.
  Proof. apply impl_skip. by apply (texts_word act skips skips_nil skips_app Cls skip_cls). Qed.
  Lemma skip_one c : skip (one c) (λ s, s = String c "").
  Proof.
    eapply texts_iff; [apply skip_cls|]. intros s. split.
    - intros (d & -> & H). apply in_one in H as ->. done.
    - intros ->. exists c. split; [done|]. by apply in_one.
  Qed.
  Lemma impl_one c e : (∀ v, e () v = v) → impl (one c) (lit (String c "")) e.
  Proof. apply impl_skip, skip_one. Qed.
  Lemma store_ident : store g_ident is_ident.
  Proof.
    eapply texts_iff; [apply texts_seq; [apply stores_app|apply store_cls|
      apply (texts_bytes act stores stores_nil stores_app buf store_cls _ _ in_name)]|].
    intros s. split.
    - intros (x1 & x2 & -> & (c & -> & Hc%in_letter) & Hx). by exists c, x2.
    - intros (c & r & -> & Hc%in_letter & Hr). exists (String c ""), r. split; [done|]. split; [by exists c|done].
  Qed.
  Lemma impl_ident k f e :
    (∀ c b v, act k c 0 (b, v) = Some ("", f b v)) → (∀ s v, is_ident s → e s v = f s v) →
    impl (Seq g_ident (Act k)) ident e.
  Proof.
    intros Hk He. eapply impl_field; [apply store_ident|done| |].
    - intros s Hs. exists s. split; [done|]. intros v. by apply He.
    - intros s a [Hs ->]. split; [done|]. intros v. by apply He.
  Qed.
  Lemma impl_names k f e :
    (∀ c b v, act k c 0 (b, v) = Some ("", f b v)) → (∀ l v, e l v = foldl (λ v s, f s v) v l) →
    impl (names k) name_list e.
  Proof.
    intros Hk He. eapply impl_giving; [eapply impl_both; [by eapply (impl_ident k f f)|]|].
    - eapply impl_many. eapply impl_after; [by apply (impl_ows (λ _ v, v))|done|].
      eapply impl_after; [by apply (impl_one "," (λ _ v, v))|done|].
      eapply impl_after; [by apply (impl_ows (λ _ v, v))|done|]. by eapply (impl_ident k f f).
    - intros [a l] v. simpl. by rewrite He.
  Qed.
  Lemma mark_ws a f :
    (∀ c b v, act a (Some c) 0 (b, v) = Some (b, f v)) → (∀ v, f (f v) = f v) →
    mark f (plus (Seq (Act a) (Cls c_space))) (λ s, s ≠ "" ∧ spaces_text s).
  Proof.
    intros Ha Hf.
    exact (texts_bytes1 act (marks f) (λ _, eq_refl) (λ s s' m, marks_app f s s' m Hf)
      (λ l, Seq (Act a) (Cls l)) (λ l, mark_cls a f l Ha) c_space space_byte in_space).
  Qed.
  Lemma mark_ws2 a f :
    (∀ c b v, act a (Some c) 0 (b, v) = Some (b, f v)) → (∀ v, f (f v) = f v) →
    mark f (Seq (Seq (Act a) (Cls c_space)) (plus (Seq (Act a) (Cls c_space))))
      (λ s, ∃ c w, s = String c w ∧ space_byte c ∧ w ≠ "" ∧ spaces_text w).
  Proof.
    intros Ha Hf. eapply texts_iff; [apply texts_seq; [intros; by apply marks_app|by apply mark_cls|by apply mark_ws]|].
    intros s. split.
    - intros (x & w & -> & (c & -> & Hc%in_space) & Hw). by exists c, w.
    - intros (c & w & -> & Hc%in_space & Hw). exists (String c ""), w. split; [done|]. split; [by exists c|done].
  Qed.
  Lemma skip_kw k : skip (kw k) (spelled k).
  Proof. by apply (texts_word act skips skips_nil skips_app Cls skip_cls). Qed.
  Lemma store_kw k : store (bkw k) (spelled k).
  Proof. by apply (texts_word act stores stores_nil stores_app buf store_cls). Qed.
  Lemma spelled_snoc k c s :
    spelled (k +:+ String c "") s ↔ ∃ s1 s2, s = s1 +:+ s2 ∧ spelled k s1 ∧ spelled (String c "") s2.
  Proof.
    revert s. induction k as [|d k IH]; intros s.
    - change ("" +:+ String c "") with (String c ""). split.
      + intros H. by exists "", s.
      + intros ([|] & s2 & -> & H1 & H2); [exact H2|done].
    - rewrite app_str_cons. split.
      + destruct s as [|x s]; [done|]. intros [Hx H]. apply IH in H as (s1 & s2 & -> & H1 & H2).
        by exists (String x s1), s2.
      + intros ([|x s1] & s2 & -> & H1 & H2); [done|]. destruct H1 as [Hx H1]. rewrite app_str_cons.
        split; [done|]. apply IH. by exists s1, s2.
  Qed.
  Lemma impl_kw_act {X} k a c f (x : X) e k' :
    k' = k +:+ String c "" →
    (∀ d b v, act a (Some d) 0 (b, v) = Some (b, f v)) → (∀ v, e x v = f v) →
    impl (kw_act k a c) (keyword k' x) e.
  Proof.
    intros -> Ha He. destruct (skip_kw k) as [H1 H2].
    destruct (texts_word act skips skips_nil skips_app Cls skip_cls letter (String c "") (λ _, eq_refl)) as [K1 K2].
    assert (∀ t, lang (letter c) t → ∃ d, t = [B d] ∧ spelled (String c "") (String d "")) as Hlet.
    { intros t Ht. destruct (K1 t) as [Hs _].
      { exists t, []. rewrite app_nil_r. done. }
      destruct Ht as (d & -> & _). by exists d. }
    assert (∀ t1 t2, lang (kw k) t1 → lang (letter c) t2 → eff (t1 ++ [A a] ++ t2) f) as Heff.
    { intros t1 t2 Ht1 Ht2 t' v. destruct (H1 _ Ht1) as [_ Hd]. destruct (Hlet _ Ht2) as (d & -> & _).
      rewrite <-app_assoc, Hd. simpl. unfold skips. rewrite Ha. by apply exec_pos. }
    split.
    - intros t (t1 & t2 & -> & Ht1 & t3 & t4 & -> & Ht3 & Ht4). simpl in Ht3. subst t3. exists x. split.
      + split; [|done]. rewrite !bytes_app. simpl. apply spelled_snoc. destruct (Hlet _ Ht4) as (d & -> & Hd).
        exists (bytes t1), (String d ""). split; [done|]. split; [by apply H1|done].
      + eapply eff_ext; [by apply Heff|]. intros v. by rewrite He.
    - intros s x' [Hs ->]. apply spelled_snoc in Hs as (s1 & s2 & -> & Hs1 & Hs2).
      destruct (H2 _ Hs1) as (t1 & Ht1 & <-). destruct (K2 _ Hs2) as (t2 & Ht2 & Hb).
      destruct Ht2 as (t3 & t4 & -> & Ht3 & Ht4). simpl in Ht4. subst t4. rewrite app_nil_r in Hb.
      exists (t1 ++ [A a] ++ t3). split; [|split].
      + exists t1, ([A a] ++ t3). split; [done|]. split; [done|]. by exists [A a], t3.
      + by rewrite !bytes_app, <-Hb.
      + eapply eff_ext; [by apply Heff|]. intros v. by rewrite He.
  Qed.
  Lemma store_two k1 k2 :
    store (all [bkw k1; g_bws; bkw k2])
      (λ s, ∃ s1 w s2, s = s1 +:+ w +:+ s2 ∧ spelled k1 s1 ∧ w ≠ "" ∧ spaces_text w ∧ spelled k2 s2).
  Proof.
    eapply texts_iff; [apply texts_seq; [apply stores_app|apply store_kw|apply texts_seq; [apply stores_app|
      apply (texts_bytes1 act stores stores_nil stores_app buf store_cls _ _ in_space)|apply store_kw]]|].
    intros s. split.
    - intros (s1 & ? & -> & H1 & w & s2 & -> & [Hw Hw'] & H2). by exists s1, w, s2.
    - intros (s1 & w & s2 & -> & H1 & Hw & Hw' & H2). exists s1, (w +:+ s2). split; [done|]. split; [done|]. by exists w, s2.
  Qed.
  Lemma impl_whole {A} r (p : reads A) e m fuel v0 s v :
    check (machine_td m) N.eqb fuel 1%N r = true → impl r p e →
    result (run m act 1 0 ("", v0) s) = Parsed v ↔ ∃ a, p s a ∧ v = e a v0.
  Proof.
    intros Hc [H1 H2].
    assert (result (run m act 1 0 ("", v0) s) = Parsed v ↔ ∃ b, run m act 1 0 ("", v0) s = Parsed (b, v)) as ->.
    { unfold result. destruct (run m act 1 0 ("", v0) s) as [[b v']|cs|]; split.
      - intros [= ->]. by exists b.
      - by intros (b' & [= -> ->]).
      - done.
      - by intros (b' & ?).
      - done.
      - by intros (b' & ?). }
    split.
    - intros (b & H). apply (parse_traces m act r fuel _ _ _ Hc) in H as (t & Hl & <- & E).
      destruct (H1 t Hl) as (a & Ha & Ea). exists a. split; [done|]. specialize (Ea [] v0).
      rewrite app_nil_r in Ea. rewrite Ea in E. by injection E as _ ->.
    - intros (a & Ha & ->). destruct (H2 _ _ Ha) as (t & Hl & <- & Ea). exists "".
      apply (parse_traces m act r fuel _ _ _ Hc). exists t. split; [done|]. split; [done|].
      specialize (Ea [] v0). rewrite app_nil_r in Ea. by rewrite Ea.
  Qed.
End impl.
