(** The file every command of a run is, names being shortened on the way: C145. *)
From Coq Require Import String Ascii.
From stdpp Require Import gmap list strings.
From Verif Require Import GoBase GoStrings GoStringsProofs ShModel ShSpec ShProofs ShExecModel ShExecSpec ShLookModel ShLookSpec
  ShLookProps ShRunSpec ShCleanModel ShCleanProps.
From Verif Require Import PathModel PathSpec PathProofs PathProps.
From Verif Require Import ParserModel ParserSpec SchedModel SchedSpec RunnerModel RunnerSpec EffectsModel EffectsSpec EffectsProofs EffectsProps ShRunProps.
From Verif Require EffectsExamples.
Local Open Scope Z_scope.

(** C145: [run_commands] says which file a command is when names are joined as they are.
    With the names Go makes of them it is the same file. *)
Theorem run_commands_shortened b h st tr q t args dir environ m fs dirs :
  good_book b → ok_host b h → executes (run_book b h) st tr →
  Does q t (Runs args dir environ) ∈ effects b h tr →
  fs [] = Some Dir → by_file fs (m_executable m) →
  lists_dirs (m_path m) dirs → Forall (λ d, begins_with "/" d ∧ never_up d) dirs →
  ∃ name rest, args = name :: rest ∧ dir = h_basedir h ∧
    (has_byte "/" name ∨ plain name →
      (∀ f, stands_for (m_executable m) dirs (h_basedir h) name f → ∃ g, program_file_clean m dir name = Some g ∧ same_file fs g f) ∧
      (∀ g, program_file_clean m dir name = Some g → ∃ f, stands_for (m_executable m) dirs (h_basedir h) name f ∧ same_file fs g f)).
Proof.
  intros Hg Hh He Hin Hr Hex Hl Hd.
  destruct (run_commands b h st tr q t args dir environ Hg Hh He Hin) as (k & n & te & e & name & rest & _ & _ & _ & _ & -> & -> & _ & Hpf).
  exists name, rest. split; [done|]. split; [done|]. intros Hname.
  assert (Hda : Forall (begins_with "/") dirs) by (eapply list.Forall_impl; [exact Hd|]; by intros ? []).
  specialize (Hpf m dirs Hl Hda). destruct (contains_byte "/" name) eqn:Eb.
  - apply contains_byte_spec in Eb. destruct (program_found_shortened m fs (h_basedir h) name dirs Hr Hex Hl Hd) as [H1 _]; [by left|].
    rewrite (H1 Eb). split; intros f Hf%Hpf; exists f; by split.
  - assert (Hs : ¬ has_byte "/" name) by (intros H%contains_byte_spec; congruence).
    destruct Hname as [?|Hp]; [done|].
    destruct (program_found_shortened m fs (h_basedir h) name dirs Hr Hex Hl Hd) as [_ H2]; [by right|].
    destruct (H2 Hs) as [G1 G2]. split.
    + intros f Hf. inversion Hf as [? Ha|? Ha|? ? _ _ Hfirst]; subst; [| |by apply G1].
      * exfalso. apply Hs. destruct Ha as [x ->]. by exists "", x.
      * exfalso. apply Hs. destruct Ha as [[x ->]|[x ->]]; [by exists ".", x|by exists "..", x].
    + intros g (f & Hf & Hsame)%G2. exists f. split; [|done]. apply stands_found; [done| |done]. by destruct Hp.
Qed.
Print Assumptions run_commands_shortened.
(** ls is in /usr/bin, which PATH calls /usr//bin/. *)
Definition ls_system : system := λ p,
  if decide (p ∈ [[]; ["usr"]; ["usr"; "bin"]]) then Some Dir else if decide (p = ["usr"; "bin"; "ls"]) then Some File else None.
Definition ls_machine : machine := Machine "/b" "/sbin:/usr//bin/" (can_run ls_system).
Example run_commands_shortened_example :
  (good_book EffectsExamples.ex_book ∧ ok_host EffectsExamples.ex_book EffectsExamples.ex_host ∧
   (∃ st, executes (run_book EffectsExamples.ex_book EffectsExamples.ex_host) st EffectsExamples.ex_trace) ∧
   ∃ q, Does q "one" (Runs ["ls"; "-l"] "/b" ["HOME=/r"; "A=1"]) ∈
     effects EffectsExamples.ex_book EffectsExamples.ex_host EffectsExamples.ex_trace) ∧
  ls_system [] = Some Dir ∧ by_file ls_system (m_executable ls_machine) ∧
  lists_dirs (m_path ls_machine) ["/sbin"; "/usr//bin/"] ∧ Forall (λ d, begins_with "/" d ∧ never_up d) ["/sbin"; "/usr//bin/"] ∧
  plain "ls" ∧ program_file_clean ls_machine "/b" "ls" = Some "/usr/bin/ls".
Proof.
  split; [destruct run_commands_example as (H1 & H2 & H3 & H4 & _); by split_and!|].
  split_and!; [done| | | |by (unfold plain; split_and!)|by vm_compute].
  - apply can_run_by_file. intros p t. unfold ls_system. by repeat case_decide.
  - split_and!; [done| |done]. repeat (apply list.Forall_cons; split); [..|by apply list.Forall_nil];
      intros H; apply contains_byte_spec in H; done.
  - repeat (apply list.Forall_cons; split); [split; [by eexists|]|split; [by eexists|]|by apply list.Forall_nil];
      intros cs ->%parts_pieces; apply (bool_decide_unpack _); by vm_compute.
Qed.
