(** A line naming a file that cannot be read: C147. *)
From Coq Require Import String Ascii.
From stdpp Require Import gmap list strings.
From Verif Require Import GoBase GoStrings GoStringsProofs ArgsModel ArgsSpec ArgsProofs ArgsProps ArgsFileModel ArgsFileSpec ArgsFileProps ArgsFileLineProps.

(** Words with a word "@FILE" among them, and nothing before it that ends the flags. *)
Definition open (w : word) : Prop := match w with Raw s => s ≠ "--" ∧ ¬ dash_behind s | _ => True end.
Definition blocked (ws : list word) : Prop :=
  ∃ pre name post, ws = pre ++ Raw (String "@" name) :: post ∧ Forall open pre.

Lemma blocked_cons w ws : blocked ws → open w → blocked (w :: ws).
Proof. intros (pre & name & post & -> & H) Hw. exists (w :: pre), name, post. split; [done|]. by constructor. Qed.
Lemma blocked_tail w ws : blocked (w :: ws) → (open w ∧ blocked ws) ∨ ∃ name, w = Raw (String "@" name).
Proof.
  intros ([|w' pre] & name & post & [= -> ->] & H); [right; by eexists|]. inversion H; subst. left. split; [done|]. by exists pre, name, post.
Qed.
Lemma blocked_none : ¬ blocked [].
Proof. by intros ([] & name & post & ? & _). Qed.
Lemma dash_behind_longer c s : c ≠ "-"%char → dash_behind (String "-" s) ∨ String "-" s = "--" → dash_behind (String "-" (String c s)).
Proof.
  intros Hc [(c' & r & [= ->] & _)|[= ->]].
  - exists c, (String c' r). split; done.
  - exists c, "". split; done.
Qed.
Lemma switch_letter modern p n : (n, Some "-"%char) ∉ switches modern p.
Proof. destruct p as [| |[]]; destruct modern; cbn; rewrite ?not_elem_of_cons; repeat split; try done; apply not_elem_of_nil. Qed.
Lemma reads_blocked modern p ws ws' : reads modern p ws ws' → blocked ws → blocked ws'.
Proof.
  intros H Hb. destruct H as [ws|w ws Hw|n ws Hn Hq|n v ws Hq|c ws Hc|n c v ws Hv Hn|n c v ws Hv Hn];
    apply blocked_tail in Hb as [[Ho Hb]|[name He]]; try done.
  - by destruct Ho.
  - by apply blocked_cons.
  - injection He as ->. destruct Hw as [_ []]. by exists name.
  - by apply blocked_cons.
  - by apply blocked_cons; [apply blocked_cons|].
  - by apply blocked_cons.
  - by apply blocked_cons; [apply blocked_cons|].
  - destruct (decide (c = "-"%char)) as [->|Hc]; [by apply switch_letter in Hn|].
    apply blocked_cons; [|done]. apply blocked_cons; [done|]. split; intros H; apply Ho, dash_behind_longer; auto.
Qed.
Lemma value_blocked modern p ws v rest : value_in modern p ws v rest → blocked ws → blocked rest.
Proof.
  induction 1 as [v ws|ws ws' v rest Hr _ IH]; intros Hb; [|by eapply IH, reads_blocked].
  by apply blocked_tail in Hb as [[_ Hb]|[name ?]].
Qed.
Lemma says_blocked modern p ws i a c : says modern p ws i a c → ¬ blocked ws.
Proof.
  intros Hs. unfold not. induction Hs; intros Hb; try (by apply blocked_none in Hb); try (apply blocked_tail in Hb as [[_ Hb']|[name ?]]; [|done]);
    eauto using reads_blocked, value_blocked.
  by apply IHHs, blocked_cons.
Qed.
Lemma strays_blocked modern p ws i rest : strays modern p ws i rest → blocked ws → blocked rest.
Proof.
  intros Hs. induction Hs as [ws f rest Hr Hf| | | | | | |]; intros Hb;
    try (apply blocked_tail in Hb as [[_ Hb']|[name ?]]; [|done]); eauto using reads_blocked, value_blocked.
  assert (blocked (f :: rest)) as Hb; [destruct Hr as [->|Hr]; eauto using reads_blocked|].
  apply blocked_cons; [done|]. by destruct Hf as [[n ->]|[l ->]].
Qed.

(** C147: if a word "@FILE" remains because FILE cannot be read, no command is carried out. *)
Theorem at_file_unread files modern o ws ws' pre name post :
  expands files ws ws' → Forall (λ w, ¬ dash_behind w) ws' →
  ws' = pre ++ ("@" +:+ name) :: post → "--" ∉ pre →
  (name = "" ∨ files name = None) ∧ ∀ c v, ¬ line_comes files modern o ws (Runs c v).
Proof.
  intros He Hd Hw Hp. split.
  - clear Hd. revert pre Hw Hp. induction He as [|ws|w ws ws' _ Hnb _ IH|name' ws ws' Hb _ IH|name' text us ws ws' _ _ _ _ IH]; intros pre Hws Hp.
    + by destruct pre.
    + destruct pre as [|w pre]; [done|]. injection Hws as <- _. destruct Hp. by left.
    + destruct pre as [|w' pre]; injection Hws as -> ->; [destruct Hnb; by exists name|].
      apply (IH pre); [done|]. intros ?; apply Hp; by right.
    + destruct pre as [|w' pre]; simplify_eq/=; [done|]. apply (IH pre); [done|]. intros ?; apply Hp; by right.
    + by apply (IH pre).
  - intros c v Hc. apply (at_file_line_partial _ _ _ _ ws' _ He Hd) in Hc.
    assert (blocked (Raw <$> ws')) as Hb.
    { exists (Raw <$> pre), name, (Raw <$> post). split; [by rewrite Hw, fmap_app|]. apply list.Forall_fmap, list.Forall_forall.
      intros w Hin. split; [by intros ->|]. apply (proj1 (list.Forall_forall _ _) Hd). rewrite Hw. apply elem_of_app. by left. }
    assert (e_ran (main modern o "" (λ _, None) ws') = Some (request_of c v)) as Hr; [unfold main; by rewrite Hc|].
    apply nothing_unasked_partial in Hr as [(? & ? & ? & Hs & _)|(? & rest & ? & ? & Hs & Hr & _)]; [by eapply says_blocked|].
    eapply says_blocked; [done|]. by eapply strays_blocked.
Qed.
Print Assumptions at_file_unread.

(** * Examples *)
Example at_file_unread_example :
  expands ex_files ["ping"; "@nowhere"] ["ping"; "@nowhere"] ∧ Forall (λ w, ¬ dash_behind w) ["ping"; "@nowhere"] ∧
  ["ping"; "@nowhere"] = ["ping"] ++ ("@" +:+ "nowhere") :: [] ∧ "--" ∉ ["ping"].
Proof.
  split_and!; [|repeat constructor; by intros (c & r & ? & _)|done|].
  - apply expands_word; [done|by intros [x Hx]|]. apply (expands_bad _ "nowhere"); [by right|apply expands_end].
  - by intros H%elem_of_list_singleton.
Qed.
