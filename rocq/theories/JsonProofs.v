From Coq Require Import String Ascii.
From stdpp Require Import gmap list strings numbers.
From Verif Require Import GoBase GoStrings GoStringsProofs GoUtf8 GoUtf8Proofs ShModel DemoModel JsonModel ParserModel
  ParserSpec ParserProofs JsonParserModel JsonSpec.
Local Open Scope Z_scope.

(** * Names *)
Lemma caseless_spec c : (byte_of c < 64 → caseless c < 32) ∧ (64 ≤ byte_of c < 96 → caseless c = byte_of c) ∧
  (96 ≤ byte_of c < 128 → caseless c = byte_of c - 32) ∧ (128 ≤ byte_of c → 128 ≤ caseless c).
Proof. destruct c as [[] [] [] [] [] [] [] []]; vm_compute; split_and!; intros H; try done; by destruct H. Qed.
Lemma byte_of_inj c d : byte_of c = byte_of d → c = d.
Proof. unfold byte_of. intros H%N2Z.inj. rewrite <-(ascii_N_embedding c), <-(ascii_N_embedding d). by rewrite H. Qed.
Definition plain_name (s : string) : Prop := ∀ c, has_byte c s → byte_of c < 128.
Lemma plain_name_cons c s : plain_name (String c s) → byte_of c < 128 ∧ plain_name s.
Proof. intros H. split; [apply H, has_byte_cons; by left|]. intros d Hd. apply H, has_byte_cons. by right. Qed.
Lemma long_s_bytes a b : byte_of a = 197 → byte_of b = 191 → ∀ t, String a (String b t) = long_s +:+ t.
Proof. intros Ha Hb t. rewrite (byte_of_inj a (of_byte 197)), (byte_of_inj b (of_byte 191)); [done|by rewrite Hb|by rewrite Ha]. Qed.
Lemma kelvin_bytes a b c : byte_of a = 226 → byte_of b = 132 → byte_of c = 170 → ∀ t, String a (String b (String c t)) = kelvin_sign +:+ t.
Proof. intros Ha Hb Hc t. rewrite (byte_of_inj a (of_byte 226)), (byte_of_inj b (of_byte 132)), (byte_of_inj c (of_byte 170)); [done|by rewrite Hc|by rewrite Hb|by rewrite Ha]. Qed.
Lemma s_bytes c : c ∈ ["s"%char; "S"%char] ↔ byte_of c = 115 ∨ byte_of c = 83.
Proof.
  rewrite !elem_of_cons, elem_of_nil. split; [by intros [->|[->|[]]]; [left|right]|].
  intros [H|H]; [left|right; left]; by apply byte_of_inj.
Qed.
Lemma k_bytes c : c ∈ ["k"%char; "K"%char] ↔ byte_of c = 107 ∨ byte_of c = 75.
Proof.
  rewrite !elem_of_cons, elem_of_nil. split; [by intros [->|[->|[]]]; [left|right]|].
  intros [H|H]; [left|right; left]; by apply byte_of_inj.
Qed.
Lemma equal_fold_same s t : equal_fold s t = true → plain_name s → same_name s t.
Proof.
  revert t. induction s as [|c s IH]; intros t H Hp; cbn in H.
  - apply bool_decide_eq_true in H as ->. constructor.
  - apply plain_name_cons in Hp as [Hc Hp]. destruct t as [|d t]; [done|].
    pose proof (caseless_spec c) as (C1 & C2 & C3 & C4). pose proof (caseless_spec d) as (D1 & D2 & D3 & D4).
    pose proof (byte_of_range c) as Rc. pose proof (byte_of_range d) as Rd.
    case_bool_decide as Hd.
    + apply andb_prop in H as [H Ht]. specialize (IH t Ht Hp).
      apply orb_prop in H as [->%bool_decide_eq_true|[H1%bool_decide_eq_true H2%bool_decide_eq_true]%andb_prop]; [by constructor|].
      destruct (decide (byte_of c = byte_of d)) as [->%byte_of_inj|Hne]; [by constructor|].
      destruct (decide (byte_of c < 96)); [apply sn_lower|apply sn_upper]; try done; lia.
    + case_bool_decide as Hs.
      * destruct t as [|d1 t]; [done|]. apply andb_prop in H as [[H1 H2]%bool_decide_eq_true Ht].
        rewrite (long_s_bytes _ _ H1 H2). apply sn_long_s; [|by apply IH]. apply s_bytes. lia.
      * case_bool_decide as Hk; [|done]. destruct t as [|d1 [|d2 t]]; [done..|].
        apply andb_prop in H as [(H1 & H2 & H3)%bool_decide_eq_true Ht].
        rewrite (kelvin_bytes _ _ _ H1 H2 H3). apply sn_kelvin; [|by apply IH]. apply k_bytes. lia.
Qed.
Lemma same_equal_fold s t : same_name s t → equal_fold s t = true.
Proof.
  induction 1 as [|c s t Hc H IH|c d s t Hc Hd H IH|c d s t Hc Hd H IH|c s t Hc H IH|c s t Hc H IH]; cbn [equal_fold].
  - done.
  - rewrite bool_decide_eq_true_2 by done. rewrite bool_decide_eq_true_2 by done. done.
  - rewrite bool_decide_eq_true_2 by lia. pose proof (caseless_spec c). pose proof (caseless_spec d).
    rewrite (bool_decide_eq_true_2 (65 ≤ caseless c ≤ 90)), (bool_decide_eq_true_2 (caseless c = caseless d)) by lia.
    rewrite IH. by destruct (bool_decide _).
  - rewrite bool_decide_eq_true_2 by lia. pose proof (caseless_spec c). pose proof (caseless_spec d).
    rewrite (bool_decide_eq_true_2 (65 ≤ caseless c ≤ 90)), (bool_decide_eq_true_2 (caseless c = caseless d)) by lia.
    rewrite IH. by destruct (bool_decide _).
  - rewrite <-(long_s_bytes (of_byte 197) (of_byte 191)) by done. cbn [equal_fold]. apply s_bytes in Hc.
    pose proof (caseless_spec c). rewrite (bool_decide_eq_false_2 (byte_of _ < 128)) by done.
    rewrite (bool_decide_eq_true_2 (caseless c = 83)) by lia. rewrite bool_decide_eq_true_2 by done. done.
  - rewrite <-(kelvin_bytes (of_byte 226) (of_byte 132) (of_byte 170)) by done. cbn [equal_fold]. apply k_bytes in Hc.
    pose proof (caseless_spec c). rewrite (bool_decide_eq_false_2 (byte_of _ < 128)) by done.
    rewrite (bool_decide_eq_false_2 (caseless c = 83)) by lia.
    rewrite (bool_decide_eq_true_2 (caseless c = 75)) by lia. rewrite bool_decide_eq_true_2 by done. done.
Qed.
Lemma equal_fold_spec s t : plain_name s → equal_fold s t = true ↔ same_name s t.
Proof. intros H. split; [intros He; by apply equal_fold_same|apply same_equal_fold]. Qed.

(** Names, in lower case. *)
Definition lower_byte (c : ascii) : ascii := if decide (65 ≤ byte_of c ≤ 90) then of_byte (byte_of c + 32) else c.
Fixpoint norm (s : string) : string :=
  match s with
  | "" => ""
  | String c s =>
      match s with
      | String d t =>
          if decide (byte_of c = 197 ∧ byte_of d = 191) then String "s" (norm t)
          else match t with
               | String e u =>
                   if decide (byte_of c = 226 ∧ byte_of d = 132 ∧ byte_of e = 170) then String "k" (norm u)
                   else String (lower_byte c) (norm s)
               | "" => String (lower_byte c) (norm s)
               end
      | "" => String (lower_byte c) (norm s)
      end
  end.
Lemma norm_plain c s : byte_of c < 128 → norm (String c s) = String (lower_byte c) (norm s).
Proof.
  intros Hc. destruct s as [|d [|e s]]; [done|..].
  - cbn. by rewrite decide_False by lia.
  - cbn. rewrite !decide_False by lia. done.
Qed.
Lemma same_norm n k : same_name n k → norm k = norm n ∧ plain_name n.
Proof.
  assert (∀ c s, byte_of c < 128 → plain_name s → plain_name (String c s)) as Hcons.
  { intros c s Hc Hs d [<-|Hd]%has_byte_cons; auto. }
  induction 1 as [|c s t Hc H [IH Hp]|c d s t Hc Hd H [IH Hp]|c d s t Hc Hd H [IH Hp]|c s t Hc H [IH Hp]|c s t Hc H [IH Hp]].
  - split; [done|]. by intros c H%has_byte_nil.
  - rewrite !norm_plain by done. rewrite IH. auto.
  - rewrite !norm_plain by lia. rewrite IH. split; [|apply Hcons; [lia|done]]. f_equal. unfold lower_byte.
    rewrite decide_False by lia. rewrite decide_True by lia. apply byte_of_inj. rewrite byte_of_of_byte by lia. done.
  - rewrite !norm_plain by lia. rewrite IH. split; [|apply Hcons; [lia|done]]. f_equal. unfold lower_byte.
    rewrite decide_True by lia. rewrite decide_False by lia. apply byte_of_inj. rewrite byte_of_of_byte by lia. lia.
  - apply s_bytes in Hc. rewrite (norm_plain c) by lia. split; [|apply Hcons; [lia|done]].
    change (norm (long_s +:+ t)) with (String "s" (norm t)). rewrite IH. f_equal. unfold lower_byte. apply byte_of_inj.
    case_decide; [rewrite byte_of_of_byte by lia|]; change (byte_of "s") with 115; lia.
  - apply k_bytes in Hc. rewrite (norm_plain c) by lia. split; [|apply Hcons; [lia|done]].
    change (norm (kelvin_sign +:+ t)) with (String "k" (norm t)). rewrite IH. f_equal. unfold lower_byte. apply byte_of_inj.
    case_decide; [rewrite byte_of_of_byte by lia|]; change (byte_of "k") with 107; lia.
Qed.
Lemma same_name_refl n : plain_name n → same_name n n.
Proof. induction n as [|c n IH]; [constructor|]. intros [Hc Hn]%plain_name_cons. constructor; auto. Qed.

(** * Structs *)
Record lawful {S} (fs : list (string * fld S)) : Prop := {
  law_plain n f : (n, f) ∈ fs → plain_name n;
  law_names i j n f m g : fs !! i = Some (n, f) → fs !! j = Some (m, g) → norm n = norm m → i = j;
  law_get n f s x : (n, f) ∈ fs → fl_get f (fl_put f s x) = x;
  law_other i j n f m g s x : fs !! i = Some (n, f) → fs !! j = Some (m, g) → i ≠ j → fl_get g (fl_put f s x) = fl_get g s;
  law_ext s s' : (∀ n f, (n, f) ∈ fs → fl_get f s = fl_get f s') → s = s' }.
Lemma find_field_spec {S} (fs : list (string * fld S)) k f : lawful fs →
  find_field fs k = Some f ↔ ∃ n, (n, f) ∈ fs ∧ same_name n k.
Proof.
  intros HL. assert (∀ n n' f f', (n, f) ∈ fs → (n', f') ∈ fs → same_name n k → same_name n' k → f = f') as Hu.
  { intros n n' g g' [i Hi]%elem_of_list_lookup [j Hj]%elem_of_list_lookup [Hn _]%same_norm [Hn' _]%same_norm.
    assert (i = j) as -> by (eapply law_names; [done|exact Hi|exact Hj|congruence]). rewrite Hi in Hj. by injection Hj. }
  unfold find_field. destruct (list_find (λ f, f.1 = k) fs) as [[i [n g]]|] eqn:H1.
  - apply list_find_Some in H1 as (H1 & H1' & _). cbn in H1'. subst n. cbn.
    assert ((k, g) ∈ fs) as Hg by (by eapply elem_of_list_lookup_2). pose proof (law_plain _ HL _ _ Hg).
    split; [intros [= <-]; exists k; split; [done|by apply same_name_refl]|].
    intros (n & Hn & Hs). f_equal. eapply Hu; [exact Hg|exact Hn| |done]. by apply same_name_refl.
  - destruct (list_find (λ f, equal_fold f.1 k = true) fs) as [[i [n g]]|] eqn:H2.
    + apply list_find_Some in H2 as (H2 & H2' & _). cbn in *.
      assert ((n, g) ∈ fs) as Hg by (by eapply elem_of_list_lookup_2). pose proof (law_plain _ HL _ _ Hg).
      apply equal_fold_same in H2'; [|done].
      split; [intros [= <-]; by exists n|]. intros (n' & Hn' & Hs). f_equal. by eapply Hu.
    + split; [done|]. intros (n & Hn & Hs). apply list_find_None in H2. rewrite List.Forall_forall in H2.
      apply elem_of_list_In in Hn. destruct (H2 _ Hn). cbn. by apply same_equal_fold.
Qed.
Fixpoint feed {T} (into : T → json → option T) (cur : T) (vs : list json) : option T :=
  match vs with [] => Some cur | v :: vs => x ← into cur v; feed into x vs end.
Definition values (n : string) (l : list (string * json)) : list json := (filter (λ kv, equal_fold n kv.1 = true) l).*2.
Lemma values_cons n k v l : values n ((k, v) :: l) = if equal_fold n k then v :: values n l else values n l.
Proof. unfold values. rewrite filter_cons. cbn. destruct (equal_fold n k); [by rewrite decide_True|by rewrite decide_False]. Qed.
Lemma into_fields_spec {S} (fs : list (string * fld S)) s l s' : lawful fs →
  into_fields fs s l = Some s' ↔
  (∀ k v, (k, v) ∈ l → ∃ n f, (n, f) ∈ fs ∧ same_name n k) ∧
  (∀ n f, (n, f) ∈ fs → feed (fl_into f) (fl_get f s) (values n l) = Some (fl_get f s')).
Proof.
  intros HL. revert s. induction l as [|[k v] l IH]; intros s; cbn [into_fields].
  - split.
    + intros [= <-]. split; [by intros k v ?%elem_of_nil|done].
    + intros [_ H]. f_equal. apply (law_ext _ HL). intros n f Hf. specialize (H n f Hf). cbn in H. by injection H.
  - assert (∀ n f m g s x, (n, f) ∈ fs → (m, g) ∈ fs → same_name n k → equal_fold m k = false → fl_get g (fl_put f s x) = fl_get g s) as Ho.
    { intros n f m g s0 x [i Hi]%elem_of_list_lookup [j Hj]%elem_of_list_lookup Hs Hf. eapply law_other; [done|exact Hi|exact Hj|].
      intros ->. rewrite Hi in Hj. injection Hj as <- <-. apply same_equal_fold in Hs. congruence. }
    assert (∀ n f m g, (n, f) ∈ fs → (m, g) ∈ fs → same_name n k → equal_fold m k = true → (n, f) = (m, g)) as Hsame.
    { intros n f m g [i Hi]%elem_of_list_lookup Hm [Hn _]%same_norm He. pose proof (law_plain _ HL _ _ Hm) as Hpm.
      apply equal_fold_same in He; [|done]. apply same_norm in He as [He _]. apply elem_of_list_lookup in Hm as [j Hj].
      assert (i = j) as -> by (eapply law_names; [done|exact Hi|exact Hj|congruence]). congruence. }
    split.
    + intros (f & Hf & H)%bind_Some. apply bind_Some in H as (s1 & Hs1 & H). apply find_field_spec in Hf as (n & Hn & Hnk); [|done].
      unfold store in Hs1. apply fmap_Some in Hs1 as (x & Hx & ->). apply IH in H as [Ha Hb]. split.
      * intros k' v' [[= -> ->]|Hk']%elem_of_cons; [eauto|eauto].
      * intros m g Hm. specialize (Hb m g Hm). rewrite values_cons. destruct (equal_fold m k) eqn:He.
        -- injection (Hsame n f m g Hn Hm Hnk He) as <- <-. cbn. rewrite Hx. cbn. by rewrite (law_get _ HL n f s x Hn) in Hb.
        -- by rewrite <-Hb, (Ho n f m g s x Hn Hm Hnk He).
    + intros [Ha Hb]. destruct (Ha k v) as (n & f & Hn & Hnk); [by apply elem_of_cons; left|].
      assert (find_field fs k = Some f) as Hf by (apply find_field_spec; eauto). rewrite Hf. cbn.
      pose proof (Hb n f Hn) as Hfeed. rewrite values_cons, (same_equal_fold _ _ Hnk) in Hfeed. cbn in Hfeed.
      apply bind_Some in Hfeed as (x & Hx & Hfeed). unfold store. rewrite Hx. cbn. apply IH. split.
      * intros k' v' Hk'. apply (Ha k' v'). apply elem_of_cons. by right.
      * intros m g Hm. specialize (Hb m g Hm). rewrite values_cons in Hb. destruct (equal_fold m k) eqn:He.
        -- injection (Hsame n f m g Hn Hm Hnk He) as <- <-. by rewrite (law_get _ HL n f s x Hn).
        -- by rewrite <-Hb, (Ho n f m g s x Hn Hm Hnk He).
Qed.

(** * Settings *)
Definition vals (v : json) (n : string) : list json := match v with JObj l => values n l | _ => [] end.
Lemma into_struct_spec {S} (fs : list (string * fld S)) s v s' : lawful fs →
  into_struct fs s v = Some s' ↔ only_settings fs.*1 v ∧
  Forall (λ nf, feed (fl_into nf.2) (fl_get nf.2 s) (vals v nf.1) = Some (fl_get nf.2 s')) fs.
Proof.
  intros HL. assert (∀ P : string * fld S → Prop, Forall P fs ↔ ∀ n f, (n, f) ∈ fs → P (n, f)) as HF.
  { intros P. rewrite List.Forall_forall. split; [intros H n f; rewrite elem_of_list_In; apply H|].
    intros H [n f]. rewrite <-elem_of_list_In. apply H. }
  rewrite HF. cbn [fst snd]. unfold only_settings. destruct v as [| | | |a|l]; cbn [into_struct vals feed];
    try (split; [done|]; intros [[?|(l0 & ? & _)] _]; done).
  - split; [intros [= <-]; split; [by left|done]|]. intros [_ H]. f_equal. apply (law_ext _ HL). intros n f Hf.
    specialize (H n f Hf). by injection H.
  - rewrite into_fields_spec by done. f_equiv. split.
    + intros H. right. exists l. split; [done|]. intros k x (n & f & Hf & Hs)%H. exists n. split; [|done].
      apply elem_of_list_fmap. by exists (n, f).
    + intros [?|(l' & [= <-] & H)]; [done|]. intros k x (n & ([n' f] & -> & Hf)%elem_of_list_fmap & Hs)%H. eauto.
Qed.
Lemma gives_vals v n x : plain_name n → gives v n x ↔ x ∈ vals v n.
Proof.
  intros Hp. unfold gives. split.
  - intros (l & k & -> & Hl & Hs). cbn. unfold values. apply elem_of_list_fmap. exists (k, x). split; [done|].
    apply elem_of_list_filter. split; [by apply same_equal_fold|done].
  - destruct v as [| | | |a|l]; cbn; try by intros ?%elem_of_nil. unfold values.
    intros ([k y] & -> & [Hs Hl]%elem_of_list_filter)%elem_of_list_fmap. exists l, k. cbn in Hs. split_and!; try done.
    by apply equal_fold_same.
Qed.
Lemma values_short n l : plain_name n →
  (∀ i j k k' x x', l !! i = Some (k, x) → l !! j = Some (k', x') → same_name n k → same_name n k' → i = j) →
  values n l = [] ∨ ∃ x, values n l = [x].
Proof.
  intros Hp. induction l as [|[k v] l IH]; intros H; [by left|]. rewrite values_cons. destruct (equal_fold n k) eqn:He.
  - right. exists v. f_equal. apply equal_fold_same in He; [|done]. destruct (values n l) as [|y r] eqn:Hv; [done|]. exfalso.
    assert (y ∈ vals (JObj l) n) as Hy by (cbn; rewrite Hv; apply elem_of_cons; by left).
    apply gives_vals in Hy as (l' & k' & [= <-] & [j Hj]%elem_of_list_lookup & Hs); [|done].
    assert (0%nat = S j) by (by eapply (H 0%nat (S j))). done.
  - apply IH. intros i j k1 k2 x1 x2 H1 H2 S1 S2. assert (S i = S j) by (by eapply (H (S i) (S j))). lia.
Qed.
Lemma settings_plain n : n ∈ all_settings → plain_name n.
Proof.
  assert (Forall (λ n, Forall (λ c, byte_of c < 128) (list_ascii_of_string n)) all_settings) as H.
  { apply (bool_decide_unpack _). by vm_compute. }
  intros Hn c Hc. rewrite List.Forall_forall in H. apply elem_of_list_In in Hn. specialize (H n Hn).
  rewrite List.Forall_forall in H. apply H. clear -Hc. induction n as [|d n IH]; [by apply has_byte_nil in Hc|].
  apply has_byte_cons in Hc as [->|Hc]; [by left|right; auto].
Qed.
Lemma vals_short v n : given_once v → n ∈ all_settings → vals v n = [] ∨ ∃ x, vals v n = [x].
Proof.
  intros Hg Hn. destruct v as [| | | |a|l]; cbn; try by left. apply values_short; [by apply settings_plain|].
  intros i j k k' x x' H1 H2 S1 S2. by eapply Hg.
Qed.
(** Reading one value into a field that holds [d]. *)
Definition stores {T} (into : T → json → option T) (reads : json → T → Prop) (d : T) (y : json) : Prop :=
  ∀ x, into d y = Some x ↔ (y = JNull ∧ x = d) ∨ (y ≠ JNull ∧ reads y x).
Lemma feed_setting {T} (into : T → json → option T) reads d v n x : given_once v → n ∈ all_settings →
  (∀ y, gives v n y → stores into reads d y) →
  feed into d (vals v n) = Some x ↔ setting reads v n d x.
Proof.
  intros Hg Hn Hs. pose proof (settings_plain n Hn) as Hp. unfold setting. setoid_rewrite gives_vals; [|done..].
  setoid_rewrite gives_vals in Hs; [|done]. destruct (vals_short v n Hg Hn) as [->|[y Hy]].
  - cbn. split; [intros [= <-]; right; by split; [intros y ?%elem_of_nil|]|].
    by intros [(y & ?%elem_of_nil & _)|[_ ->]].
  - rewrite Hy in *. cbn. assert (into d y = Some x ↔ (x0 ← into d y; Some x0) = Some x) as <- by (by destruct (into d y)).
    pose proof (Hs y (proj2 (elem_of_list_singleton y y) eq_refl) x) as ->. setoid_rewrite elem_of_list_singleton. split.
    + intros [[-> ->]|[? ?]]; [right; by split; [intros ? ->|]|left; eauto].
    + intros [(? & -> & ? & ?)|[H ->]]; [by right|left; auto].
Qed.
Lemma stores_string d y : stores into_string reads_string d y.
Proof.
  intros x. destruct y; cbn; split; try done; try (intros [[? ?]|[? H]]; done || by inversion H).
  all: try (intros [= <-]; by left). all: try (intros [= <-]; right; split; [done|constructor]).
  all: intros [[? ->]|[? H]]; try done; by inversion H.
Qed.
(** Numbers. *)
Lemma decimal_sound s : ∀ p acc n, decimal_text p acc → decimal acc s = Some n → decimal_text (p +:+ s) n.
Proof.
  induction s as [|c s IH]; intros p acc n Hp H; cbn in H.
  - injection H as <-. by rewrite app_str_nil_r.
  - case_bool_decide as Hc; [|done].
    replace (p +:+ String c s) with ((p +:+ String c "") +:+ s) by (rewrite <-app_str_assoc; done).
    eapply IH; [|exact H]. eapply decimal_more; [done| |]; lia.
Qed.
Lemma decimal_snoc s : ∀ acc c, decimal acc (s +:+ String c "") =
  (n ← decimal acc s; if bool_decide (48 ≤ byte_of c ≤ 57) then Some (10 * n + (byte_of c - 48)) else None).
Proof.
  induction s as [|d s IH]; intros acc c; [done|]. rewrite app_str_cons. cbn. case_bool_decide; [apply IH|done].
Qed.
Lemma unsigned_spec s n : unsigned s = Some n ↔ decimal_text s n.
Proof.
  unfold unsigned. split.
  - destruct (decide (s = "")); [done|]. destruct s as [|c s]; [done|]. cbn. case_bool_decide; [|done]. intros Hd.
    change (String c s) with (String c "" +:+ s). eapply decimal_sound; [|exact Hd]. constructor; lia.
  - intros H. rewrite decide_False.
    + induction H as [c d Hc Hd|s n c d H IH Hc Hd].
      * cbn. rewrite bool_decide_eq_true_2 by lia. f_equal. lia.
      * rewrite decimal_snoc, IH. cbn. rewrite bool_decide_eq_true_2 by lia. f_equal. lia.
    + destruct H as [|s n c d H]; [done|]. by destruct s.
Qed.
Lemma decimal_text_start s n : decimal_text s n → ∃ c r, s = String c r ∧ 48 ≤ byte_of c ≤ 57 ∧ 0 ≤ n.
Proof.
  induction 1 as [c d Hc Hd|s n c d H (c' & r & -> & Hc' & Hn) Hc Hd].
  - exists c, "". split_and!; try done; lia.
  - exists c', (r +:+ String c ""). rewrite app_str_cons. split_and!; try done; lia.
Qed.
Lemma signed_spec s n : signed s = Some n ↔ decimal_text s n ∨ ∃ t m, s = "-" +:+ t ∧ decimal_text t m ∧ n = - m.
Proof.
  unfold signed. destruct s as [|c r].
  - split; [done|]. intros [(? & ? & ? & _)%decimal_text_start|(t & m & ? & _)]; done.
  - case_decide as Hc.
    + subst c. rewrite fmap_Some. setoid_rewrite unsigned_spec. split.
      * intros (m & Hm & ->). right. by exists r, m.
      * intros [(c & r' & [= <- <-] & H & _)%decimal_text_start|(t & m & [= ->] & Hm & ->)]; [exfalso|eauto].
        by change (byte_of "-") with 45 in H; lia.
    + rewrite unsigned_spec. split; [by left|]. intros [?|(t & m & [= -> _] & _)]; done.
Qed.
Lemma stores_int d y : stores into_int reads_int d y.
Proof.
  intros x. destruct y as [| |t| | |]; cbn; try (split; [done|]; intros [[? _]|[_ H]]; [done|by inversion H]).
  - split; [intros [= <-]; by left|]. by intros [[_ ->]|[? _]].
  - rewrite bind_Some. setoid_rewrite signed_spec. split.
    + intros (n & Hn & H). case_bool_decide as Hr; [|done]. injection H as <-. right. split; [done|].
      destruct Hn as [Hn|(t' & m & -> & Hm & ->)]; constructor; try done; lia.
    + intros [[? _]|[_ H]]; [done|]. inversion H as [? ? Hd Hb|t' m Hd Hb]; subst.
      * exists x. split; [by left|]. apply decimal_text_start in Hd as (? & ? & _ & _ & ?).
        rewrite bool_decide_eq_true_2; [done|lia].
      * exists (- m). split; [right; by exists t', m|]. apply decimal_text_start in Hd as (? & ? & _ & _ & ?).
        rewrite bool_decide_eq_true_2; [done|lia].
Qed.
Lemma stores_port d y : stores into_uint16 reads_port d y.
Proof.
  intros x. destruct y as [| |t| | |]; cbn; try (split; [done|]; intros [[? _]|[_ H]]; [done|by inversion H]).
  - split; [intros [= <-]; by left|]. by intros [[_ ->]|[? _]].
  - rewrite bind_Some. setoid_rewrite unsigned_spec. split.
    + intros (n & Hn & H). case_bool_decide as Hr; [|done]. injection H as <-. right. split; [done|]. constructor; [done|lia].
    + intros [[? _]|[_ H]]; [done|]. inversion H as [? ? Hd Hb]; subst. exists x. split; [done|].
      rewrite bool_decide_eq_true_2; [done|lia].
Qed.
(** Lists and maps. *)
Lemma into_element y s : into_string "" y = Some s ↔ reads_element y s.
Proof. rewrite (stores_string "" y s). unfold reads_element. split; [intros [?|[? ?]]; auto|]. intros [H|?]; [|by left]. right. split; [|done]. intros ->. by inversion H. Qed.
Lemma into_elements_spec l x : into_elements [] l = Some x ↔ Forall2 reads_element l x.
Proof.
  revert x. induction l as [|v l IH]; intros x; cbn.
  - split; [intros [= <-]; constructor|]. by intros ->%Forall2_nil_inv_l.
  - rewrite bind_Some. split.
    + intros (s & Hs%into_element & H). apply bind_Some in H as (xs & Hxs%IH & [= <-]). by constructor.
    + intros H. inversion H as [|? s ? xs Hs Hxs]; subst. exists s. split; [by apply into_element|]. apply bind_Some. exists xs.
      split; [by apply IH|done].
Qed.
Lemma stores_strings y : stores into_strings reads_strings [] y.
Proof.
  intros x. destruct y as [| | | |l|]; cbn; try (split; [done|]; intros [[? _]|[_ H]]; [done|by inversion H]).
  - split; [intros [= <-]; by left|]. by intros [[_ ->]|[? _]].
  - rewrite into_elements_spec. split; [right; split; [done|by constructor]|]. intros [[? _]|[_ H]]; [done|]. by inversion H.
Qed.
Lemma last_entry_cons k y l k' x : last_entry ((k, y) :: l) k' x ↔ last_entry l k' x ∨ (k' = k ∧ x = y ∧ k ∉ l.*1).
Proof.
  split.
  - intros (l1 & l2 & Hl & Hn). destruct l1 as [|b1 l1]; cbn in Hl.
    + injection Hl as <- <- ->. by right.
    + injection Hl as <- ->. left. by exists l1, l2.
  - intros [(l1 & l2 & -> & Hn)|(-> & -> & Hn)]; [by exists ((k, y) :: l1), l2|by exists [], l].
Qed.
Lemma into_entries_spec {A} (dec : json → option A) l : ∀ m0 m, into_entries dec m0 l = Some m ↔
  (∀ k x, (k, x) ∈ l → ∃ a, dec x = Some a) ∧
  ∀ k a, m !! k = Some a ↔ (∃ x, last_entry l k x ∧ dec x = Some a) ∨ (k ∉ l.*1 ∧ m0 !! k = Some a).
Proof.
  induction l as [|[k y] l IH]; intros m0 m; cbn [into_entries].
  - assert (∀ k x, ¬ last_entry [] k x) as Hnil by (intros k x (l1 & l2 & H & _); by destruct l1). split.
    + intros [= <-]. split; [by intros k x ?%elem_of_nil|]. intros k a. split; [right; split; [apply not_elem_of_nil|done]|].
      intros [(x & []%Hnil & _)|[_ ?]]; done.
    + intros [_ H]. f_equal. apply map_eq. intros k. apply option_eq. intros a. rewrite H. split.
      * intros ?. right. split; [apply not_elem_of_nil|done].
      * intros [(x & []%Hnil & _)|[_ ?]]; done.
  - assert (∀ b, dec y = Some b → ∀ k' a,
      ((∃ x, last_entry l k' x ∧ dec x = Some a) ∨ (k' ∉ l.*1 ∧ <[k := b]> m0 !! k' = Some a)) ↔
      ((∃ x, last_entry ((k, y) :: l) k' x ∧ dec x = Some a) ∨ (k' ∉ ((k, y) :: l).*1 ∧ m0 !! k' = Some a))) as Hstep.
    { intros b Hb k' a. setoid_rewrite last_entry_cons. rewrite fmap_cons, not_elem_of_cons. cbn. split.
      - intros [(x & ? & ?)|[Hn Hk]]; [left; eauto|]. apply lookup_insert_Some in Hk as [[<- <-]|[Hne Hk]]; [left|right; auto].
        exists y. split; [by right|done].
      - intros [(x & [?|(-> & -> & Hn)] & Hx)|[[Hne Hn] Hk]]; [left; eauto| |].
        + right. split; [done|]. rewrite lookup_insert. congruence.
        + right. split; [done|]. by rewrite lookup_insert_ne by done. }
    split.
    + intros (b & Hb & H)%bind_Some. apply IH in H as [Ha Hm]. split.
      * intros k' x [[= -> ->]|?]%elem_of_cons; eauto.
      * intros k' a. rewrite Hm. by apply Hstep.
    + intros [Ha Hm]. destruct (Ha k y) as [b Hb]; [by apply elem_of_cons; left|]. rewrite Hb. cbn. apply IH. split.
      * intros k' x Hx. apply (Ha k'). apply elem_of_cons. by right.
      * intros k' a. rewrite Hm. symmetry. by apply Hstep.
Qed.
Lemma stores_map {A} (dec : json → option A) (reads : json → A → Prop) y :
  (∀ l k x a, y = JObj l → (k, x) ∈ l → dec x = Some a ↔ reads x a) → stores (into_map dec) (reads_map reads) ∅ y.
Proof.
  intros Hd m. destruct y as [| | | |ys|l]; cbn; try (split; [done|]; intros [[? _]|[_ (l0 & ? & _)]]; done).
  - split; [intros [= <-]; by left|]. by intros [[_ ->]|[? _]].
  - assert (∀ k x, last_entry l k x → (k, x) ∈ l) as Hle.
    { intros k x (l1 & l2 & -> & _). apply elem_of_app. right. apply elem_of_cons. by left. }
    rewrite into_entries_spec. unfold reads_map. split.
    + intros [Ha Hm]. right. split; [done|]. exists l. split; [done|]. split.
      * intros k x Hx. destruct (Ha k x Hx) as [a Ha']. exists a. by eapply Hd.
      * intros k a. rewrite Hm, lookup_empty. split.
        -- intros [(x & Hx & Hxa)|[_ ?]]; [|done]. exists x. split; [done|]. eapply Hd; eauto.
        -- intros (x & Hx & Hxa). left. exists x. split; [done|]. eapply Hd; eauto.
    + intros [[? _]|[_ (l' & [= <-] & Ha & Hm)]]; [done|]. split.
      * intros k x Hx. destruct (Ha k x Hx) as [a Ha']. exists a. by eapply Hd.
      * intros k a. rewrite Hm, lookup_empty. split.
        -- intros (x & Hx & Hxa). left. exists x. split; [done|]. eapply Hd; eauto.
        -- intros [(x & Hx & Hxa)|[_ ?]]; [|done]. exists x. split; [done|]. eapply Hd; eauto.
Qed.
