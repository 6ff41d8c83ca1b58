From Coq Require Import String Ascii.
From stdpp Require Import gmap list strings numbers.
From Verif Require Import GoBase GoStrings GoStringsProofs GoUtf8 GoUtf8Proofs ShModel DemoModel JsonModel ParserModel
  ParserSpec ParserProofs JsonParserModel JsonSpec JsonProofs.
Local Open Scope Z_scope.

(** * The structs of the program *)
Ltac pick H i :=
  lazymatch type of H with
  | [] !! _ = _ => done
  | (?a :: ?l) !! _ = ?r => destruct i as [|i]; [injection H as <- <-|change (l !! i = r) in H; pick H i]
  end.
Lemma names_lawful {S} (fs : list (string * fld S)) : NoDup (norm <$> fs.*1) →
  ∀ i j n f m g, fs !! i = Some (n, f) → fs !! j = Some (m, g) → norm n = norm m → i = j.
Proof.
  intros H i j n f m g Hi Hj He. eapply (NoDup_lookup _ _ _ (norm n) H); rewrite !list_lookup_fmap; [by rewrite Hi|].
  rewrite Hj. cbn. by rewrite He.
Qed.
Lemma names_plain {S} (fs : list (string * fld S)) : Forall (λ n, n ∈ all_settings) fs.*1 → ∀ n f, (n, f) ∈ fs → plain_name n.
Proof.
  intros H n f Hf. apply settings_plain. rewrite List.Forall_forall in H. apply H, elem_of_list_In, elem_of_list_fmap. by exists (n, f).
Qed.
Lemma gets_forall {S} (fs : list (string * fld S)) s s' :
  (∀ n f, (n, f) ∈ fs → fl_get f s = fl_get f s') → Forall (λ nf, fl_get nf.2 s = fl_get nf.2 s') fs.
Proof. intros H. apply List.Forall_forall. intros [n f] Hf. cbn. apply (H n). by apply elem_of_list_In. Qed.
Ltac lawful_tac fs :=
  split;
  [apply names_plain; apply (bool_decide_unpack _); by vm_compute
  |apply names_lawful; apply (bool_decide_unpack _); by vm_compute
  |intros n f s x [i Hi]%elem_of_list_lookup; unfold fs in Hi; pick Hi i; done
  |intros i j n f m g s x Hi Hj Hne; unfold fs in Hi, Hj; pick Hi i; pick Hj j; done
  |intros s s' H%gets_forall; unfold fs in H; rewrite ?list.Forall_cons in H; cbn in H; decompose [and] H;
   first [done|destruct s, s'; cbn in *; congruence]].
Lemma pg_lawful : lawful pg_fields. Proof. lawful_tac pg_fields. Qed.
Lemma env_lawful : lawful env_fields. Proof. lawful_tac env_fields. Qed.
Lemma sh_lawful : lawful sh_fields. Proof. lawful_tac sh_fields. Qed.
Lemma demo_lawful : lawful demo_fields. Proof. lawful_tac demo_fields. Qed.
Lemma pg_exec_lawful : lawful pg_exec_fields. Proof. lawful_tac pg_exec_fields. Qed.
Lemma sh_exec_lawful : lawful sh_exec_fields. Proof. lawful_tac sh_exec_fields. Qed.
Lemma sleep_lawful : lawful sleep_fields. Proof. lawful_tac sleep_fields. Qed.
Lemma no_lawful : lawful no_fields. Proof. lawful_tac no_fields. Qed.
Lemma target_lawful : lawful target_fields. Proof. lawful_tac target_fields. Qed.
Lemma task_lawful : lawful task_fields. Proof. lawful_tac task_fields. Qed.
Lemma runbook_lawful : lawful runbook_fields. Proof. lawful_tac runbook_fields. Qed.

(** * What each struct says *)
Ltac in_settings := apply (bool_decide_unpack _); by vm_compute.
Ltac field_tac reads n lem :=
  match goal with |- context [feed ?into ?d (vals ?v n)] =>
    rewrite (feed_setting into reads d v n); [|assumption|in_settings|intros ? ?; lem] end.
Ltac struct_tac law fs :=
  rewrite (into_struct_spec _ _ _ _ law); apply and_iff_compat_l;
  unfold fs; rewrite ?list.Forall_cons, list.Forall_nil; cbn [fst snd fl_into fl_get].
Lemma env_struct v e : given_once v → into_struct env_fields (Env [] [] ∅) v = Some e ↔ env_says v e.
Proof.
  intros Hg. unfold env_says. struct_tac env_lawful env_fields.
  field_tac reads_strings "Allow" ltac:(apply stores_strings).
  field_tac reads_strings "Deny" ltac:(apply stores_strings).
  field_tac (reads_map reads_element) "Set" ltac:(apply stores_map; intros; apply into_element). tauto.
Qed.
Lemma stores_struct {S} (fs : list (string * fld S)) says d y :
  (∀ x, into_struct fs d y = Some x ↔ says y x) → stores (into_struct fs) says d y.
Proof.
  intros H x. rewrite H. split.
  - intros Hx. destruct y; try (right; by split). left. split; [done|]. apply H in Hx. by injection Hx.
  - intros [[-> ->]|[_ ?]]; [|done]. by apply H.
Qed.
Definition config_once (c : json) : Prop := given_once c ∧ ∀ e, gives c "Env" e → given_once e.
Lemma pg_struct v s : given_once v → into_struct pg_fields (PgSettings 1 "" 0 "" "" "" "" 0) v = Some s ↔
  target_says "pg" v (PgTarget s).
Proof.
  intros Hg. unfold target_says. assert (∀ P, ("pg" = "pg" ∧ P) ↔ P) as -> by tauto. struct_tac pg_lawful pg_fields.
  field_tac reads_int "Concurrency" ltac:(apply stores_int). field_tac reads_string "Host" ltac:(apply stores_string).
  field_tac reads_port "Port" ltac:(apply stores_port). field_tac reads_string "sslmode" ltac:(apply stores_string).
  field_tac reads_string "Username" ltac:(apply stores_string). field_tac reads_string "Password" ltac:(apply stores_string).
  field_tac reads_string "Database" ltac:(apply stores_string). field_tac reads_int "connect_retries" ltac:(apply stores_int). tauto.
Qed.
Lemma sh_struct v s : config_once v → into_struct sh_fields (1, Env [] [] ∅) v = Some s ↔ target_says "sh" v (ShTarget s.1 s.2).
Proof.
  intros [Hg He]. unfold target_says. assert (∀ P, ("sh" = "sh" ∧ P) ↔ P) as -> by tauto. struct_tac sh_lawful sh_fields.
  field_tac reads_int "Concurrency" ltac:(apply stores_int).
  field_tac env_says "Env" ltac:(apply stores_struct; intros; apply env_struct; by apply He). tauto.
Qed.
Lemma demo_struct v s : given_once v → into_struct demo_fields "" v = Some s ↔ target_says "demo" v (DemoTgt s).
Proof.
  intros Hg. unfold target_says. assert (∀ P, ("demo" = "demo" ∧ P) ↔ P) as -> by tauto. struct_tac demo_lawful demo_fields.
  field_tac reads_string "String" ltac:(apply stores_string). tauto.
Qed.
Lemma target_config class t0 v t : fresh_target class t0 → config_once v →
  dec_target json_decoder t0 v = Some t ↔ target_says class v t.
Proof.
  intros Hf Hc. pose proof Hc as [Hg He]. destruct Hf; cbn [json_decoder dec_target]; rewrite fmap_Some.
  - setoid_rewrite pg_struct; [|done]. split; [by intros (s & ? & ->)|]. destruct t as [s| |]; [by exists s|by intros [? _]..].
  - setoid_rewrite sh_struct; [|done]. split; [by intros (s & ? & ->)|].
    destruct t as [|c e|]; [by intros [? _]|by exists (c, e)|by intros [? _]].
  - setoid_rewrite demo_struct; [|done]. split; [by intros (s & ? & ->)|]. destruct t as [| |s]; [by intros [? _]..|by exists s].
Qed.
Lemma pg_exec_struct v s : given_once v → into_struct pg_exec_fields "" v = Some s ↔
  only_settings ["sql"] v ∧ setting reads_string v "sql" "" s.
Proof.
  intros Hg. struct_tac pg_exec_lawful pg_exec_fields. field_tac reads_string "sql" ltac:(apply stores_string). tauto.
Qed.
Lemma sh_exec_struct v s : config_once v → into_struct sh_exec_fields ([], Env [] [] ∅) v = Some s ↔
  only_settings ["Args"; "Env"] v ∧ setting reads_strings v "Args" [] s.1 ∧ setting env_says v "Env" (Env [] [] ∅) s.2.
Proof.
  intros [Hg He]. struct_tac sh_exec_lawful sh_exec_fields. field_tac reads_strings "Args" ltac:(apply stores_strings).
  field_tac env_says "Env" ltac:(apply stores_struct; intros; apply env_struct; by apply He). tauto.
Qed.
Lemma sleep_struct v s : given_once v → into_struct sleep_fields 0 v = Some s ↔
  only_settings ["Seconds"] v ∧ setting reads_int v "Seconds" 0 s.
Proof.
  intros Hg. struct_tac sleep_lawful sleep_fields. field_tac reads_int "Seconds" ltac:(apply stores_int). tauto.
Qed.
Lemma no_struct v : into_struct no_fields tt v = Some tt ↔ only_settings [] v.
Proof. rewrite (into_struct_spec _ _ _ _ no_lawful). unfold no_fields. rewrite list.Forall_nil. cbn. tauto. Qed.
Lemma task_config_says class kind c0 v c : fresh_task class kind c0 → config_once v →
  dec_config json_decoder c0 v = Some c ↔ task_says class kind v c.
Proof.
  intros Hf Hc. pose proof Hc as [Hg He].
  assert (∀ c0, (λ _ : unit, c0) <$> into_struct no_fields tt v = Some c ↔ c = c0 ∧ only_settings [] v) as Hno.
  { intros c1. rewrite fmap_Some, <-no_struct. split; [by intros ([] & ? & ->)|]. intros [-> ?]. by exists tt. }
  destruct Hf; cbn [json_decoder dec_config].
  1,2: rewrite fmap_Some; setoid_rewrite pg_exec_struct; [|done]; unfold task_says; split;
    [intros (s & [? ?] & ->); split_and!; try done; in_settings|destruct c as [s| |[]]; [by intros (_ & _ & ? & ?); exists s|by intros [? _]..]].
  1,2: rewrite fmap_Some; setoid_rewrite sh_exec_struct; [|done]; unfold task_says; split;
    [intros (s & (? & ? & ?) & ->); split_and!; try done; in_settings
    |destruct c as [|a e|[]]; [by intros [? _]|by intros (_ & _ & ?); exists (a, e)|by intros [? _]..]].
  5: { rewrite fmap_Some. setoid_rewrite sleep_struct; [|done]. unfold task_says. split; [by intros (s & ? & ->)|].
       destruct c as [| |[]]; try (by intros [? _]); try (by intros (_ & ? & _)). intros (_ & _ & ?). by exists seconds. }
  all: rewrite Hno; unfold task_says; split; [by intros [-> ?]|]; destruct c as [| |[]]; try (by intros [? _]); try (by intros (_ & ? & _)); by intros (_ & _ & ?).
Qed.

(** * Entries *)
Lemma config_setting v n config : given_once v → n ∈ all_settings →
  setting eq v n JNull config ↔ ∃ raw, feed into_raw None (vals v n) = Some raw ∧ config = default JNull raw.
Proof.
  intros Hg Hn. pose proof (settings_plain n Hn) as Hp. unfold setting. setoid_rewrite gives_vals; [|done..].
  destruct (vals_short v n Hg Hn) as [->|[y ->]]; cbn.
  - split; [intros [(y & ?%elem_of_nil & _)|[_ ->]]; [done|by exists None]|].
    intros (raw & [= <-] & ->). right. split; [|done]. by intros y ?%elem_of_nil.
  - split.
    + intros [(x & ->%elem_of_list_singleton & _ & ->)|[H ->]]; [by exists (Some config)|].
      exists (Some y). split; [done|]. cbn. symmetry. apply H. by apply elem_of_list_singleton.
    + intros (raw & [= <-] & ->). cbn. assert (y = JNull ∨ y ≠ JNull) as [->|Hy] by (destruct y; (by left) || (by right)).
      * right. split; [|done]. by intros x ->%elem_of_list_singleton.
      * left. exists y. split_and!; [by apply elem_of_list_singleton|done..].
Qed.
Lemma target_struct v w : given_once v → into_struct target_fields (TargetDoc "" None) v = Some w ↔
  only_settings ["Class"; "Config"] v ∧ setting reads_string v "Class" "" (td_class w) ∧
  feed into_raw None (vals v "Config") = Some (td_config w).
Proof.
  intros Hg. struct_tac target_lawful target_fields. field_tac reads_string "Class" ltac:(apply stores_string). tauto.
Qed.
Lemma task_struct v w : given_once v → into_struct task_fields (TaskDoc [] "" "" None) v = Some w ↔
  only_settings ["After"; "Target"; "Message"; "Config"] v ∧ setting reads_strings v "After" [] (kd_after w) ∧
  setting reads_string v "Target" "" (kd_target w) ∧ setting reads_string v "Message" "" (kd_message w) ∧
  feed into_raw None (vals v "Config") = Some (kd_config w).
Proof.
  intros Hg. struct_tac task_lawful task_fields. field_tac reads_strings "After" ltac:(apply stores_strings).
  field_tac reads_string "Target" ltac:(apply stores_string). field_tac reads_string "Message" ltac:(apply stores_string). tauto.
Qed.
(** Null as a Config changes nothing. *)
Lemma null_struct {S} (fs : list (string * fld S)) s : into_struct fs s JNull = Some s.
Proof. done. Qed.
Lemma configured_target t0 raw t :
  configured (dec_target json_decoder) t0 raw t ↔ dec_target json_decoder t0 (default JNull raw) = Some t.
Proof.
  unfold configured. destruct raw as [v|]; cbn [default from_option id].
  - split; [intros [[? _]|(x & [= <-] & ?)]; done|]. intros ?. right. by exists v.
  - assert (dec_target json_decoder t0 JNull = Some t0) as -> by (by destruct t0).
    split; [intros [[_ ->]|(x & ? & _)]; done|]. intros [= <-]. by left.
Qed.
Lemma configured_task c0 raw c :
  configured (dec_config json_decoder) c0 raw c ↔ dec_config json_decoder c0 (default JNull raw) = Some c.
Proof.
  unfold configured. destruct raw as [v|]; cbn [default from_option id].
  - split; [intros [[? _]|(x & [= <-] & ?)]; done|]. intros ?. right. by exists v.
  - assert (dec_config json_decoder c0 JNull = Some c0) as -> by (by destruct c0 as [| |[]]).
    split; [intros [[_ ->]|(x & ? & _)]; done|]. intros [= <-]. by left.
Qed.
Lemma null_once : config_once JNull.
Proof. split; [by intros l n i j k k' x x' ?|]. by intros e (l & k & ? & _). Qed.
Lemma setting_once v config : given_once v → (∀ c, gives v "Config" c → config_once c) →
  setting eq v "Config" JNull config → config_once config.
Proof. intros Hg Hc [(y & Hy & _ & <-)|[_ ->]]; [by apply Hc|apply null_once]. Qed.
Lemma fresh_says class v t : target_says class v t → ∃ t0, fresh_target class t0.
Proof. destruct t; intros [-> _]; eexists; constructor. Qed.
Lemma fresh_task_says class kind v c : task_says class kind v c → ∃ c0, fresh_task class kind c0.
Proof.
  destruct c as [| |[]]; cbn; intros (-> & Hk & _).
  1,2: apply elem_of_list_In in Hk as [<-|[<-|[]]]; eexists; constructor.
  all: subst; eexists; constructor.
Qed.
Definition target_decode := into_pointer (into_struct target_fields) (TargetDoc "" None).
Definition task_decode := into_pointer (into_struct task_fields) (TaskDoc [] "" "" None).
Lemma pointer_some {A} (dec : A → json → option A) z v w :
  into_pointer dec z v = Some (Some w) ↔ v ≠ JNull ∧ dec z v = Some w.
Proof. destruct v; cbn; rewrite ?fmap_Some; naive_solver. Qed.
Lemma target_json_iff v t : entry_given_once v →
  target_json v t ↔ ∃ w, target_decode v = Some (Some w) ∧ target_means json_decoder w t.
Proof.
  intros [Hg Hc]. unfold target_json, target_entry, target_means, target_decode. setoid_rewrite pointer_some.
  setoid_rewrite target_struct; [|done]. setoid_rewrite configured_target. split.
  - intros (class & config & Hv & (Ho & Hcl & Hcf) & Hs & Hl).
    pose proof (setting_once _ _ Hg Hc Hcf) as Hco. destruct (fresh_says _ _ _ Hs) as [t0 Hf].
    apply config_setting in Hcf as (raw & Hraw & ->); [|done|in_settings].
    exists (TargetDoc class raw). split_and!; try done. exists t0. split_and!; try done. by apply (target_config class).
  - intros (w & (Hv & Ho & Hcl & Hraw) & t0 & Hf & Hd & Hl). exists (td_class w), (default JNull (td_config w)).
    assert (setting eq v "Config" JNull (default JNull (td_config w))) as Hcf.
    { apply config_setting; [done|in_settings|]. by exists (td_config w). }
    split_and!; try done. by apply (target_config _ t0); [|apply (setting_once v)|].
Qed.
Lemma task_json_iff targets v b : entry_given_once v →
  task_json targets v b ↔ ∃ w, task_decode v = Some (Some w) ∧ task_means json_decoder targets w b.
Proof.
  intros [Hg Hc]. unfold task_json, task_entry, task_means, task_decode. setoid_rewrite pointer_some.
  setoid_rewrite task_struct; [|done]. setoid_rewrite configured_task. split.
  - intros (tgt & kind & t & config & c & Hv & (Ho & Ha & Ht & Hm & Hcf) & Hn & Hl & Hs & Had & Hgo).
    pose proof (setting_once _ _ Hg Hc Hcf) as Hco. destruct (fresh_task_says _ _ _ _ Hs) as [c0 Hf].
    apply config_setting in Hcf as (raw & Hraw & ->); [|done|in_settings].
    exists (TaskDoc (b_after b) tgt (b_message b) raw). split_and!; try done. exists kind, t, c0, c. split_and!; try done.
    by apply (task_config_says (target_class t) kind).
  - intros (w & (Hv & Ho & Ha & Ht & Hm & Hraw) & kind & t & c0 & c & Hn & Hl & Hf & Hd & Had & Hgo & Hba & Hbm).
    assert (setting eq v "Config" JNull (default JNull (kd_config w))) as Hcf.
    { apply config_setting; [done|in_settings|]. by exists (kd_config w). }
    exists (kd_target w), kind, t, (default JNull (kd_config w)), c. rewrite Hba, Hbm. split_and!; try done.
    by apply (task_config_says _ _ c0); [|apply (setting_once v)|].
Qed.

(** * Maps *)
Lemma last_entry_elem l k x : last_entry l k x → (k, x) ∈ l.
Proof. intros (l1 & l2 & -> & _). apply elem_of_app. right. apply elem_of_cons. by left. Qed.
Lemma last_entry_nodup l k x : NoDup l.*1 → last_entry l k x ↔ (k, x) ∈ l.
Proof.
  intros Hn. split; [apply last_entry_elem|]. intros (l1 & l2 & ->)%elem_of_list_split. exists l1, l2. split; [done|].
  rewrite fmap_app in Hn. cbn in Hn. apply NoDup_app in Hn as (_ & _ & Hn). by apply list.NoDup_cons in Hn as [? _].
Qed.
Lemma nodup_same (l : list (string * json)) k x x' : NoDup l.*1 → (k, x) ∈ l → (k, x') ∈ l → x = x'.
Proof.
  intros Hn [i Hi]%elem_of_list_lookup [j Hj]%elem_of_list_lookup.
  assert (i = j) as <-. { eapply (NoDup_lookup _ _ _ k Hn); by rewrite list_lookup_fmap, ?Hi, ?Hj. }
  rewrite Hi in Hj. by injection Hj.
Qed.
Section maps.
  Context {W A : Type} (tdec : json → option (option W)) (means : W → A → Prop) (js : json → A → Prop).
  Context (v : json) (n : string).
  Hypothesis Hg : given_once v.
  Hypothesis Hn : n ∈ all_settings.
  Hypothesis Hnd : ∀ l, gives v n (JObj l) → NoDup l.*1.
  Hypothesis Hjs : ∀ l k x a, gives v n (JObj l) → (k, x) ∈ l → js x a ↔ ∃ w, tdec x = Some (Some w) ∧ means w a.
  Hypothesis Hfun : ∀ w a a', means w a → means w a' → a = a'.
  Lemma feed_map m : feed (into_map tdec) ∅ (vals v n) = Some m ↔ setting (reads_map (λ x o, tdec x = Some o)) v n ∅ m.
  Proof. apply feed_setting; [done..|]. intros y _. by apply stores_map. Qed.
  Lemma compose_map r : (∃ m, feed (into_map tdec) ∅ (vals v n) = Some m ∧ entries_mean means m r) ↔
    setting (reads_map js) v n ∅ r.
  Proof.
    setoid_rewrite feed_map. split.
    - intros (m & [(y & Hy & Hnull & l & -> & Hall & Hm)|[Hnull ->]] & He).
      + specialize (Hnd _ Hy). left. exists (JObj l). split_and!; [done..|]. exists l. split; [done|].
        assert (∀ k x, (k, x) ∈ l → ∃ a, r !! k = Some a ∧ js x a) as Hx.
        { intros k x Hk. destruct (Hall _ _ Hk) as [o Ho].
          assert (m !! k = Some o) as Hmk by (apply Hm; exists x; by rewrite last_entry_nodup).
          specialize (He k). rewrite Hmk in He. destruct o as [w|]; [|by destruct (r !! k)].
          destruct (r !! k) as [a|]; [|done]. exists a. split; [done|]. apply (Hjs l k); [done..|]. by exists w. }
        split; [intros k x Hk; destruct (Hx _ _ Hk) as (a & _ & ?); by exists a|].
        intros k a. setoid_rewrite last_entry_nodup; [|done]. split.
        * intros Hr. specialize (He k). rewrite Hr in He. destruct (m !! k) as [o|] eqn:Hmk; [|done].
          apply Hm in Hmk as (x & Hk%last_entry_elem & Ho). exists x. split; [done|].
          destruct (Hx _ _ Hk) as (a' & Hr' & ?). rewrite Hr in Hr'. by injection Hr' as ->.
        * intros (x & Hk & Ha). destruct (Hx _ _ Hk) as (a' & -> & Ha'). f_equal.
          apply (Hjs l k) in Ha as (w & Hw & Ha); [|done..]. apply (Hjs l k) in Ha' as (w' & Hw' & Ha'); [|done..].
          rewrite Hw in Hw'. injection Hw' as <-. by apply (Hfun w).
      + right. split; [done|]. apply map_empty. intros k. specialize (He k). rewrite lookup_empty in He. by destruct (r !! k).
    - intros [(y & Hy & Hnull & l & -> & Hall & Hm)|[Hnull ->]].
      + specialize (Hnd _ Hy).
        set (m := list_to_map ((λ kx : string * json, (kx.1, default None (tdec kx.2))) <$> l) : gmap string (option W)).
        assert (∀ k o, m !! k = Some o ↔ ∃ x, (k, x) ∈ l ∧ o = default None (tdec x)) as Hmk.
        { intros k o. unfold m. rewrite <-elem_of_list_to_map.
          - rewrite elem_of_list_fmap. split.
            + intros ([k' x] & [= -> ->] & ?). by exists x.
            + intros (x & ? & ->). by exists (k, x).
          - rewrite <-list_fmap_compose. done. }
        assert (∀ k x, (k, x) ∈ l → ∃ w a, tdec x = Some (Some w) ∧ means w a ∧ r !! k = Some a) as Hx.
        { intros k x Hk. destruct (Hall _ _ Hk) as [a Ha].
          assert (r !! k = Some a) as Hr by (apply Hm; exists x; by rewrite last_entry_nodup).
          apply (Hjs l k) in Ha as (w & Hw & Ha); [|done..]. by exists w, a. }
        exists m. split.
        * left. exists (JObj l). split_and!; [done..|]. exists l. split; [done|]. split.
          { intros k x Hk. destruct (Hx _ _ Hk) as (w & a & Hw & _). by exists (Some w). }
          intros k o. rewrite Hmk. setoid_rewrite last_entry_nodup; [|done]. split; intros (x & Hk & Ho); exists x.
          -- destruct (Hx _ _ Hk) as (w & a & Hw & _). rewrite Hw in Ho |- *. by rewrite Ho.
          -- by rewrite Ho.
        * intros k. destruct (m !! k) as [o|] eqn:Ho.
          -- apply Hmk in Ho as (x & Hk & ->). destruct (Hx _ _ Hk) as (w & a & -> & ? & ->). done.
          -- destruct (r !! k) as [a|] eqn:Hr; [|done]. apply Hm in Hr as (x & Hk%last_entry_elem & _).
             assert (m !! k = Some (default None (tdec x))) as Hsome by (apply Hmk; by exists x). congruence.
      + exists ∅. split; [by right|]. intros k. by rewrite !lookup_empty.
  Qed.
  Lemma map_range m o : feed (into_map tdec) ∅ (vals v n) = Some m → order_of v n o → range_of m o.
  Proof.
    rewrite feed_map. intros Hs [Ho1 Ho2]. unfold range_of. destruct Hs as [(y & Hy & _ & l & -> & Hall & Hm)|[Hnull ->]].
    - rewrite (Ho1 _ Hy). specialize (Hnd _ Hy). apply NoDup_Permutation; [done|apply NoDup_elements|].
      intros k. rewrite elem_of_elements, elem_of_dom, elem_of_list_fmap. split.
      + intros ([k' x] & -> & Hk). destruct (Hall _ _ Hk) as [a Ha]. exists a. apply Hm. exists x. by rewrite last_entry_nodup.
      + intros [a (x & Hk%last_entry_elem & _)%Hm]. by exists (k, x).
    - rewrite dom_empty_L, elements_empty. rewrite Ho2; [done|]. by intros l ?%Hnull.
  Qed.
End maps.

(** * The document *)
Lemma target_means_fun dec w t t' : target_means dec w t → target_means dec w t' → t = t'.
Proof. rewrite <-!load_target_means. congruence. Qed.
Lemma task_means_fun dec ts w t t' : task_means dec ts w t → task_means dec ts w t' → t = t'.
Proof. rewrite <-!load_task_means. congruence. Qed.
Lemma decode_runbook_spec v d : decode_runbook v = Some d ↔ only_settings ["Targets"; "Tasks"] v ∧
  feed (into_map target_decode) ∅ (vals v "Targets") = Some (d_targets d) ∧
  feed (into_map task_decode) ∅ (vals v "Tasks") = Some (d_tasks d).
Proof.
  unfold decode_runbook. rewrite (into_struct_spec _ _ _ _ runbook_lawful). apply and_iff_compat_l.
  unfold runbook_fields. rewrite ?list.Forall_cons, list.Forall_nil. cbn [fst snd fl_into fl_get d_targets d_tasks].
  unfold target_decode, task_decode. tauto.
Qed.
Lemma parse_json_exact v o1 o2 b : document_given_once v → order_of v "Targets" o1 → order_of v "Tasks" o2 →
  parse_json v o1 o2 = Ok b ↔ document_says v b.
Proof.
  intros [Hg Hd] Ho1 Ho2. unfold document_says.
  assert (∀ l, gives v "Targets" (JObj l) → NoDup l.*1) as N1 by (intros l Hl; by apply (Hd (JObj l)); [left|]).
  assert (∀ l, gives v "Tasks" (JObj l) → NoDup l.*1) as N2 by (intros l Hl; by apply (Hd (JObj l)); [right|]).
  rewrite <-(compose_map target_decode (target_means json_decoder) target_json v "Targets"); [|done|in_settings|done| |].
  2: { intros l k x a Hl Hk. apply target_json_iff. by apply (Hd (JObj l) l (or_introl Hl) eq_refl) in Hk. }
  2: apply target_means_fun.
  rewrite <-(compose_map task_decode (task_means json_decoder (bk_targets b)) (task_json (bk_targets b)) v "Tasks");
    [|done|in_settings|done| |].
  2: { intros l k x a Hl Hk. apply task_json_iff. by apply (Hd (JObj l) l (or_intror Hl) eq_refl) in Hk. }
  2: apply task_means_fun.
  unfold parse_json. split.
  - destruct (decode_runbook v) as [d|] eqn:Hdec; [|done]. apply decode_runbook_spec in Hdec as (H0 & H1 & H2).
    rewrite parse_exact_lem; [|apply (map_range target_decode v "Targets"); first [done|in_settings]|apply (map_range task_decode v "Tasks"); first [done|in_settings]]. intros [E1 E2]. split_and!; [done| |].
    + by exists (d_targets d).
    + by exists (d_tasks d).
  - intros (H0 & (m1 & H1 & E1) & (m2 & H2 & E2)).
    assert (decode_runbook v = Some (Doc m1 m2)) as -> by (by apply decode_runbook_spec).
    apply parse_exact_lem; [apply (map_range target_decode v "Targets"); first [done|in_settings]|apply (map_range task_decode v "Tasks"); first [done|in_settings]|]. done.
Qed.

(** * Consequences *)
Lemma json_decoder_ok : ok_decoder json_decoder.
Proof.
  split.
  - intros [] raw t'; cbn; rewrite fmap_Some; by intros (x & _ & ->).
  - intros [| |[]] raw t'; cbn; rewrite fmap_Some; by intros (x & _ & ->).
Qed.
Lemma feed_all {T} (into : T → json → option T) cur vs r v : feed into cur vs = Some r → v ∈ vs → ∃ c x, into c v = Some x.
Proof.
  revert cur. induction vs as [|w vs IH]; intros cur; cbn; [by intros _ ?%elem_of_nil|].
  rewrite bind_Some. intros (x & Hx & H) [->|Hv]%elem_of_cons; [by exists cur, x|]. by eapply IH.
Qed.
Lemma decode_entries {A} (dec : json → option A) v n m id x : n ∈ all_settings →
  feed (into_map dec) ∅ (vals v n) = Some m → entry_of v n id x → ∃ a, dec x = Some a.
Proof.
  intros Hn Hf (l & Hl & Hx). apply gives_vals in Hl; [|by apply settings_plain].
  destruct (feed_all _ _ _ _ _ Hf Hl) as (c & y & Hy). cbn in Hy. apply into_entries_spec in Hy as [Hy _]. by eapply Hy.
Qed.
Lemma pointer_struct {S} (fs : list (string * fld S)) z x o : lawful fs →
  into_pointer (into_struct fs) z x = Some o → only_settings fs.*1 x.
Proof.
  intros HL H. assert (x = JNull ∨ x ≠ JNull) as [->|Hx] by (destruct x; (by left) || (by right)); [by left|].
  assert (∃ w, into_struct fs z x = Some w) as [w Hw].
  { destruct x; cbn [into_pointer] in H; [done|apply fmap_Some in H as (w & Hw & _); by exists w..]. }
  by apply (into_struct_spec fs z x w HL) in Hw as [? _].
Qed.
Lemma unknown_rejected_lem v o1 o2 :
  (¬ only_settings ["Targets"; "Tasks"] v ∨
   (∃ id x, entry_of v "Targets" id x ∧ ¬ only_settings ["Class"; "Config"] x) ∨
   (∃ id x, entry_of v "Tasks" id x ∧ ¬ only_settings ["After"; "Target"; "Message"; "Config"] x)) →
  parse_json v o1 o2 = Err BadConfig.
Proof.
  intros H. unfold parse_json. destruct (decode_runbook v) as [d|] eqn:Hd; [|done]. exfalso.
  apply decode_runbook_spec in Hd as (H0 & H1 & H2). destruct H as [H|[(id & x & He & H)|(id & x & He & H)]]; [done|..].
  - destruct (decode_entries target_decode v "Targets" _ id x ltac:(in_settings) H1 He) as [o Ho].
    by apply (pointer_struct _ _ _ _ target_lawful) in Ho.
  - destruct (decode_entries task_decode v "Tasks" _ id x ltac:(in_settings) H2 He) as [o Ho].
    by apply (pointer_struct _ _ _ _ task_lawful) in Ho.
Qed.
(** Where nothing is given twice there is one value of a setting. *)
Lemma gives_fun v n y y' : given_once v → n ∈ all_settings → gives v n y → gives v n y' → y = y'.
Proof.
  intros Hg Hn. rewrite !gives_vals by (by apply settings_plain).
  destruct (vals_short v n Hg Hn) as [->|[z ->]]; [by intros ?%elem_of_nil|].
  by intros ->%elem_of_list_singleton ->%elem_of_list_singleton.
Qed.
Lemma setting_used {A} (reads : json → A → Prop) v n d x : given_once v → n ∈ all_settings → setting reads v n d x → used reads v n x.
Proof.
  intros Hg Hn [(z & Hz & _ & Hr)|[Hnull _]] y Hy Hny; [|by apply Hnull in Hy].
  by rewrite (gives_fun v n y z).
Qed.
Lemma used_impl {A} (R R' : json → A → Prop) v n x : (∀ y, gives v n y → R y x → R' y x) → used R v n x → used R' v n x.
Proof. intros H Hu y Hy Hn. by apply H, Hu. Qed.
Ltac used_tac := eapply setting_used; [eassumption|in_settings|eassumption].
Lemma env_says_used v e : given_once v → env_says v e → env_used v e.
Proof. intros Hg (_ & H1 & H2 & H3). split_and!; used_tac. Qed.
Lemma target_says_used class v t : config_once v → target_says class v t → target_used v t.
Proof.
  intros [Hg He]. destruct t; cbn [target_says target_used]; intros H; destruct_and!; split_and?; try used_tac.
  eapply used_impl; [|used_tac]. intros y Hy. apply env_says_used. by apply He.
Qed.
Lemma task_says_used class kind v c c' : config_once v → task_says class kind v c → adjusted c c' → task_used v c'.
Proof.
  intros [Hg He]. destruct c as [| |[]]; cbn [adjusted]; intros H ->; cbn [task_says task_used] in *; destruct_and!;
    split_and?; try done; try used_tac.
  - eapply used_impl; [|used_tac]. intros y Hy. apply env_says_used. by apply He.
  - intros y Hy Hn. eexists. split; [|done]. eapply (setting_used reads_int v "Seconds"); [eassumption|in_settings|eassumption|done..].
Qed.
Lemma env_only v : (∃ e, setting env_says v "Env" (Env [] [] ∅) e) → given_once v →
  ∀ e, gives v "Env" e → only_settings ["Allow"; "Deny"; "Set"] e.
Proof.
  intros [e0 Hs] Hg e He. assert (e = JNull ∨ e ≠ JNull) as [->|Hn] by (destruct e; (by left) || (by right)); [by left|].
  destruct (setting_used _ v "Env" _ _ Hg ltac:(in_settings) Hs e He Hn) as [? _]. done.
Qed.
Lemma no_env names v : "Env" ∈ all_settings → only_settings names v → Forall (λ n, norm n ≠ norm "Env") names → ∀ e, ¬ gives v "Env" e.
Proof.
  intros _ [->|(l & -> & Hl)] Hn e (l' & k & Heq & Hk & Hs); [done|]. injection Heq as <-. destruct (Hl _ _ Hk) as (n & Hnn & Hs').
  rewrite List.Forall_forall in Hn. apply (Hn n); [by apply elem_of_list_In|].
  apply same_norm in Hs as [Hs _]. apply same_norm in Hs' as [Hs' _]. congruence.
Qed.
Ltac no_env_tac := let He := fresh in intros ? He; exfalso; revert He; eapply no_env; [in_settings|eassumption|];
  apply (bool_decide_unpack _); by vm_compute.
Lemma target_says_known class v t : config_once v → target_says class v t →
  only_settings (target_names t) v ∧ ∀ e, gives v "Env" e → only_settings ["Allow"; "Deny"; "Set"] e.
Proof.
  intros [Hg He]. destruct t; cbn [target_says target_names]; intros H; destruct_and!; (split; [done|]); try no_env_tac.
  apply env_only; [by eexists|done].
Qed.
Lemma task_says_known class kind v c c' : config_once v → task_says class kind v c → adjusted c c' →
  only_settings (task_names c') v ∧ ∀ e, gives v "Env" e → only_settings ["Allow"; "Deny"; "Set"] e.
Proof.
  intros [Hg He]. destruct c as [| |[]]; cbn [adjusted]; intros H ->; cbn [task_says task_names] in *; destruct_and!;
    (split; [done|]); try no_env_tac.
  apply env_only; [by eexists|done].
Qed.
(** What is read for the entries of a document. *)
Lemma entry_reads {A} (js : json → A → Prop) v n r id x : given_once v → n ∈ all_settings →
  (∀ l, gives v n (JObj l) → NoDup l.*1) → setting (reads_map js) v n ∅ r → entry_of v n id x → ∃ a, r !! id = Some a ∧ js x a.
Proof.
  intros Hg Hn Hnd Hs (l & Hl & Hx). destruct (setting_used _ v n _ _ Hg Hn Hs (JObj l) Hl) as (l' & [= <-] & Hall & Hm); [done|].
  destruct (Hall _ _ Hx) as [a Ha]. exists a. split; [|done]. apply Hm. exists x. split; [|done].
  apply last_entry_nodup; [by apply Hnd|done].
Qed.
Lemma config_used (P : json → Prop) v config c : given_once v → setting eq v "Config" JNull config →
  gives v "Config" c → (P JNull) → P config → P c.
Proof.
  intros Hg Hs Hc Hnull HP. assert (c = JNull ∨ c ≠ JNull) as [->|Hn] by (destruct c; (by left) || (by right)); [done|].
  by rewrite (setting_used eq v "Config" _ _ Hg ltac:(in_settings) Hs c Hc Hn).
Qed.
Lemma json_known_lem v o1 o2 b : document_given_once v → order_of v "Targets" o1 → order_of v "Tasks" o2 →
  parse_json v o1 o2 = Ok b →
  (∀ id x, entry_of v "Targets" id x → ∃ t, bk_targets b !! id = Some t ∧
     only_known ["Class"; "Config"] (target_names t) x ∧ ∀ c, gives x "Config" c → target_used c t) ∧
  (∀ id x, entry_of v "Tasks" id x → ∃ t, bk_tasks b !! id = Some t ∧
     only_known ["After"; "Target"; "Message"; "Config"] (task_names (b_config t)) x ∧
     used reads_strings x "After" (b_after t) ∧ used reads_string x "Message" (b_message t) ∧
     ∀ c, gives x "Config" c → task_used c (b_config t)).
Proof.
  intros Hd Ho1 Ho2 Hp. apply parse_json_exact in Hp as (_ & H1 & H2); [|done..]. destruct Hd as [Hg Hd].
  assert (∀ l, gives v "Targets" (JObj l) → NoDup l.*1) as N1 by (intros l Hl; by apply (Hd (JObj l)); [left|]).
  assert (∀ l, gives v "Tasks" (JObj l) → NoDup l.*1) as N2 by (intros l Hl; by apply (Hd (JObj l)); [right|]).
  assert (only_settings [] JNull) as Hnil by by left. assert (∀ ns, only_settings ns JNull) as Hnull by by left.
  assert (∀ n e, ¬ gives JNull n e) as Hng by (by intros n e (l & k & ? & _)).
  split; intros id x Hx.
  - assert (entry_given_once x) as [Hgx Hcx].
    { destruct Hx as (l & Hl & Hx). by apply (Hd (JObj l) l (or_introl Hl) eq_refl) in Hx. }
    destruct (entry_reads _ v "Targets" _ _ _ Hg ltac:(in_settings) N1 H1 Hx) as (t & Ht & class & config & _ & (Hon & _ & Hcf) & Hs & _).
    pose proof (setting_once _ _ Hgx Hcx Hcf) as Hco. exists t. split; [done|]. split; [split; [done|]|].
    + intros c Hc. apply (config_used (λ c, only_settings (target_names t) c ∧ ∀ e, gives c "Env" e → only_settings ["Allow"; "Deny"; "Set"] e) x config); [done..| |].
      * split; [done|]. by intros e []%Hng.
      * by eapply target_says_known.
    + intros c Hc. apply (config_used (λ c, target_used c t) x config); [done..| |].
      * destruct t; cbn; split_and?; by intros y []%Hng.
      * by eapply target_says_used.
  - assert (entry_given_once x) as [Hgx Hcx].
    { destruct Hx as (l & Hl & Hx). by apply (Hd (JObj l) l (or_intror Hl) eq_refl) in Hx. }
    destruct (entry_reads _ v "Tasks" _ _ _ Hg ltac:(in_settings) N2 H2 Hx) as
      (t & Ht & tgt & kind & q & config & c0 & _ & (Hon & Haf & _ & Hme & Hcf) & _ & _ & Hs & Ha & _).
    pose proof (setting_once _ _ Hgx Hcx Hcf) as Hco. exists t. split; [done|]. split; [split; [done|]|split_and!].
    + intros c Hc. apply (config_used (λ c, only_settings (task_names (b_config t)) c ∧ ∀ e, gives c "Env" e → only_settings ["Allow"; "Deny"; "Set"] e) x config); [done..| |].
      * split; [done|]. by intros e []%Hng.
      * by eapply task_says_known.
    + used_tac.
    + used_tac.
    + intros c Hc. apply (config_used (λ c, task_used c (b_config t)) x config); [done..| |].
      * destruct (b_config t) as [| |[]]; cbn; split_and?; try done; by intros y []%Hng.
      * by eapply task_says_used.
Qed.
(** For examples. *)
Lemma given_once_keys l : NoDup (norm <$> l.*1) → given_once (JObj l).
Proof.
  intros Hn l' n i j k k' x x' [= <-] _ Hi Hj [Hk _]%same_norm [Hk' _]%same_norm.
  eapply (NoDup_lookup _ _ _ (norm n) Hn); rewrite !list_lookup_fmap; [rewrite Hi|rewrite Hj]; cbn; by f_equal.
Qed.
Lemma given_once_other v : (∀ l, v ≠ JObj l) → given_once v.
Proof. intros H l n i j k k' x x' Hv. by apply H in Hv. Qed.
Lemma gives_vals_setting v n x : n ∈ all_settings → gives v n x ↔ x ∈ vals v n.
Proof. intros. by apply gives_vals, settings_plain. Qed.
(** The doc of a runbook. *)
Lemma json_doc v o1 o2 d : document_given_once v → order_of v "Targets" o1 → order_of v "Tasks" o2 → decode_runbook v = Some d →
  range_of (d_targets d) o1 ∧ range_of (d_tasks d) o2 ∧
  (∀ id, d_targets d !! id = Some None → entry_of v "Targets" id JNull) ∧
  (∀ id, d_tasks d !! id = Some None → entry_of v "Tasks" id JNull).
Proof.
  intros [Hg Hd] Ho1 Ho2 (_ & H1 & H2)%decode_runbook_spec.
  assert (∀ l, gives v "Targets" (JObj l) → NoDup l.*1) as N1 by (intros l Hl; by apply (Hd (JObj l)); [left|]).
  assert (∀ l, gives v "Tasks" (JObj l) → NoDup l.*1) as N2 by (intros l Hl; by apply (Hd (JObj l)); [right|]).
  assert (∀ A (dec : A → json → option A) z x, into_pointer dec z x = Some None → x = JNull) as Hp.
  { intros A dec z x H. destruct x; cbn [into_pointer] in H; [done|apply fmap_Some in H as (w & _ & ?); done..]. }
  assert (∀ A (dec : A → json → option A) z n m, n ∈ all_settings → feed (into_map (into_pointer dec z)) ∅ (vals v n) = Some m →
    ∀ id, m !! id = Some None → entry_of v n id JNull) as Hn.
  { intros A dec z n m Hn Hf id Hid. apply feed_map in Hf as [(y & Hy & _ & l & -> & _ & Hm)|[_ ->]]; [|done..].
    apply Hm in Hid as (x & Hx%last_entry_elem & ->%Hp). by exists l. }
  split_and!.
  - apply (map_range target_decode v "Targets"); first [done|in_settings].
  - apply (map_range task_decode v "Tasks"); first [done|in_settings].
  - eapply Hn; [in_settings|exact H1].
  - eapply Hn; [in_settings|exact H2].
Qed.
