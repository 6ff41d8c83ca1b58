(** Regular expressions over bytes and actions, and a checker that decides whether a
    deterministic transducer produces exactly the traces of one.  Nothing here is
    specific to the modelled code. *)
From Coq Require Import String Ascii.
From stdpp Require Import list strings numbers.
From Verif Require Import GoUtf8 GoUtf8Proofs MachineModel.
Local Open Scope Z_scope.

(** Sets of bytes: unions of ranges. *)
Notation cls := (list (Z * Z)).
Fixpoint in_cls (c : Z) (l : cls) : bool :=
  match l with [] => false | (lo, hi) :: l => ((lo <=? c) && (c <=? hi)) || in_cls c l end.

Inductive re :=
  | Eps | Act (a : action) | Cls (l : cls)
  | Seq (r s : re) | Alt (r s : re) | Star (r : re).
(** A trace: the bytes read and the actions executed, in order. *)
Inductive sym := A (a : action) | B (c : ascii).
Notation trace := (list sym).
Fixpoint lang (r : re) (t : trace) : Prop :=
  match r with
  | Eps => t = []
  | Act a => t = [A a]
  | Cls l => ∃ c, t = [B c] ∧ in_cls (byte_of c) l = true
  | Seq r s => ∃ t1 t2, t = t1 ++ t2 ∧ lang r t1 ∧ lang s t2
  | Alt r s => lang r t ∨ lang s t
  | Star r => ∃ l, t = concat l ∧ Forall (lang r) l
  end.
(** The bytes of a trace. *)
Fixpoint bytes (t : trace) : string :=
  match t with [] => "" | A _ :: t => bytes t | B c :: t => String c (bytes t) end.

(** * First steps of an expression *)
(** Action sequences matched without reading a byte. *)
Fixpoint nulls (r : re) : list (list action) :=
  match r with
  | Eps => [[]]
  | Act a => [[a]]
  | Cls _ => []
  | Seq r s => n ← nulls r; m ← nulls s; [n ++ m]
  | Alt r s => nulls r ++ nulls s
  | Star r => [[]]
  end.
Definition cat (r s : re) : re := match r with Eps => s | _ => Seq r s end.
(** Actions before the first byte, the bytes possible, and what is left. *)
Fixpoint heads (r : re) : list (list action * (cls * re)) :=
  match r with
  | Eps | Act _ => []
  | Cls l => [([], (l, Eps))]
  | Seq r s =>
      ('(n, (l, r')) ← heads r; [(n, (l, cat r' s))]) ++
      (n ← nulls r; '(m, (l, s')) ← heads s; [(n ++ m, (l, s'))])
  | Alt r s => heads r ++ heads s
  | Star r => '(n, (l, r')) ← heads r; [(n, (l, cat r' (Star r)))]
  end.
(** No repetition of something that can be empty. *)
Fixpoint good (r : re) : bool :=
  match r with
  | Eps | Act _ | Cls _ => true
  | Seq r s | Alt r s => good r && good s
  | Star r => good r && match nulls r with [] => true | _ => false end
  end.

Lemma lang_cat r s t : lang (cat r s) t ↔ lang (Seq r s) t.
Proof.
  destruct r; try done. simpl. split.
  - intros H. by exists [], t.
  - intros (t1 & t2 & -> & -> & H). done.
Qed.
Definition steps (r : re) (t : trace) : Prop :=
  (∃ n, n ∈ nulls r ∧ t = A <$> n) ∨
  (∃ n l r' c t', (n, (l, r')) ∈ heads r ∧ in_cls (byte_of c) l = true ∧
    t = (A <$> n) ++ B c :: t' ∧ lang r' t').
Lemma heads_seq r s n l x :
  (n, (l, x)) ∈ heads (Seq r s) ↔
  (∃ r', (n, (l, r')) ∈ heads r ∧ x = cat r' s) ∨
  (∃ n1 n2, n = n1 ++ n2 ∧ n1 ∈ nulls r ∧ (n2, (l, x)) ∈ heads s).
Proof.
  cbn [heads]. rewrite elem_of_app. f_equiv.
  - rewrite elem_of_list_bind. split.
    + intros ([n' [l' r']] & [= -> -> ->]%elem_of_list_singleton & H). by eexists.
    + intros (r' & H & ->). eexists (_, (_, _)). split; [by apply elem_of_list_singleton|done].
  - rewrite elem_of_list_bind. split.
    + intros (n1 & H & H1). apply elem_of_list_bind in H as ([n2 [l2 s2]] & H & H2).
      apply elem_of_list_singleton in H as [= -> -> ->]. by exists n1, n2.
    + intros (n1 & n2 & -> & H1 & H2). exists n1. split; [|done]. apply elem_of_list_bind.
      exists (n2, (l, x)). split; [by apply elem_of_list_singleton|done].
Qed.
Lemma nulls_seq r s n : n ∈ nulls (Seq r s) ↔ ∃ n1 n2, n = n1 ++ n2 ∧ n1 ∈ nulls r ∧ n2 ∈ nulls s.
Proof.
  cbn [nulls]. rewrite elem_of_list_bind. split.
  - intros (n1 & H & H1). apply elem_of_list_bind in H as (n2 & H & H2).
    apply elem_of_list_singleton in H as ->. by exists n1, n2.
  - intros (n1 & n2 & -> & H1 & H2). exists n1. split; [|done]. apply elem_of_list_bind. exists n2.
    split; [by apply elem_of_list_singleton|done].
Qed.
Lemma heads_star r n l x :
  (n, (l, x)) ∈ heads (Star r) ↔ ∃ r', (n, (l, r')) ∈ heads r ∧ x = cat r' (Star r).
Proof.
  cbn [heads]. rewrite elem_of_list_bind. split.
  - intros ([n' [l' r']] & [= -> -> ->]%elem_of_list_singleton & H). by eexists.
  - intros (r' & H & ->). eexists (_, (_, _)). split; [by apply elem_of_list_singleton|done].
Qed.
Lemma lang_steps r t : good r = true → lang r t ↔ steps r t.
Proof.
  revert t. induction r as [|a|l|r IHr s IHs|r IHr s IHs|r IHr]; intros t Hg; simpl in Hg.
  - split.
    + intros ->. left. exists []. split; [by left|done].
    + intros [(n & Hn & ->)|(n & l & r' & c & t' & H & _)]; [|by apply elem_of_nil in H].
      apply elem_of_list_singleton in Hn as ->. done.
  - split.
    + intros ->. left. exists [a]. split; [by left|done].
    + intros [(n & Hn & ->)|(n & l & r' & c & t' & H & _)]; [|by apply elem_of_nil in H].
      apply elem_of_list_singleton in Hn as ->. done.
  - split.
    + intros (c & -> & Hc). right. exists [], l, Eps, c, []. split; [by left|done].
    + intros [(n & Hn & ->)|(n & l' & r' & c & t' & H & Hc & -> & Ht)]; [by apply elem_of_nil in Hn|].
      apply elem_of_list_singleton in H as [= -> -> ->]. simpl in Ht. subst. by exists c.
  - apply andb_true_iff in Hg as [Hr Hs]. split.
    + intros (t1 & t2 & -> & H1 & H2). apply IHr in H1; [|done]. destruct H1 as [(n & Hn & ->)|H1].
      * apply IHs in H2; [|done]. destruct H2 as [(m & Hm & ->)|H2].
        { left. exists (n ++ m). rewrite fmap_app. split; [|done]. apply nulls_seq. by exists n, m. }
        destruct H2 as (m & l & s' & c & t' & H & Hc & -> & Ht). right.
        exists (n ++ m), l, s', c, t'. split; [apply heads_seq; right; by exists n, m|]. split; [done|].
        split; [by rewrite fmap_app, <-(assoc app)|done].
      * destruct H1 as (n & l & r' & c & t' & H & Hc & -> & Ht). right.
        exists n, l, (cat r' s), c, (t' ++ t2). split; [apply heads_seq; left; by exists r'|]. split; [done|].
        split; [by rewrite <-(assoc app)|]. apply lang_cat. by exists t', t2.
    + intros [(n & Hn & ->)|(n & l & x & c & t' & H & Hc & -> & Ht)].
      * apply nulls_seq in Hn as (n1 & n2 & -> & H1 & H2). exists (A <$> n1), (A <$> n2).
        split; [by rewrite fmap_app|]. split; [apply IHr; [done|]; left; by exists n1|].
        apply IHs; [done|]. left. by exists n2.
      * apply heads_seq in H as [(r' & H & ->)|(n1 & n2 & -> & H1 & H)].
        { apply lang_cat in Ht as (t1 & t2 & -> & H1 & H2).
          exists ((A <$> n) ++ B c :: t1), t2. split; [by rewrite <-(assoc app)|]. split; [|done].
          apply IHr; [done|]. right. by exists n, l, r', c, t1. }
        exists (A <$> n1), ((A <$> n2) ++ B c :: t'). split; [by rewrite fmap_app, <-(assoc app)|].
        split; [apply IHr; [done|]; left; by exists n1|]. apply IHs; [done|]. right. by exists n2, l, x, c, t'.
  - apply andb_true_iff in Hg as [Hr Hs]. split.
    + intros [H|H].
      * apply IHr in H; [|done]. destruct H as [(n & Hn & ->)|(n & l & r' & c & t' & H & Hc & -> & Ht)].
        { left. exists n. split; [|done]. cbn. apply elem_of_app. by left. }
        right. exists n, l, r', c, t'. split; [|done]. cbn. apply elem_of_app. by left.
      * apply IHs in H; [|done]. destruct H as [(n & Hn & ->)|(n & l & r' & c & t' & H & Hc & -> & Ht)].
        { left. exists n. split; [|done]. cbn. apply elem_of_app. by right. }
        right. exists n, l, r', c, t'. split; [|done]. cbn. apply elem_of_app. by right.
    + intros [(n & Hn & ->)|(n & l & r' & c & t' & H & Hc & -> & Ht)].
      * cbn in Hn. apply elem_of_app in Hn as [Hn|Hn].
        { left. apply IHr; [done|]. left. by exists n. }
        right. apply IHs; [done|]. left. by exists n.
      * cbn in H. apply elem_of_app in H as [H|H].
        { left. apply IHr; [done|]. right. by exists n, l, r', c, t'. }
        right. apply IHs; [done|]. right. by exists n, l, r', c, t'.
  - apply andb_true_iff in Hg as [Hr Hs]. destruct (nulls r) as [|n0 ns] eqn:Hn0; [|done]. split.
    + intros ([|t1 l] & -> & Hl).
      { left. exists []. split; [by left|done]. }
      apply Forall_cons_1 in Hl as [H1 Hl]. apply IHr in H1; [|done].
      destruct H1 as [(n & Hn & _)|(n & k & r' & c & t' & H & Hc & -> & Ht)].
      { rewrite Hn0 in Hn. by apply elem_of_nil in Hn. }
      right. exists n, k, (cat r' (Star r)), c, (t' ++ concat l).
      split; [apply heads_star; by exists r'|]. split; [done|]. split; [simpl; by rewrite <-(assoc app)|].
      apply lang_cat. exists t', (concat l). split; [done|]. split; [done|]. by exists l.
    + intros [(n & Hn & ->)|(n & k & x & c & t' & H & Hc & -> & Ht)].
      * apply elem_of_list_singleton in Hn as ->. by exists [].
      * apply heads_star in H as (r' & H & ->). apply lang_cat in Ht as (t1 & t2 & -> & H1 & (l & -> & Hl)).
        exists (((A <$> n) ++ B c :: t1) :: l). split; [simpl; by rewrite <-(assoc app)|].
        constructor; [|done]. apply IHr; [done|]. right. by exists n, k, r', c, t1.
Qed.
Lemma good_cat r s : good r = true → good s = true → good (cat r s) = true.
Proof. intros H1 H2. destruct r; simpl in *; rewrite ?H1, ?H2; done. Qed.
Lemma good_heads r n l x : good r = true → (n, (l, x)) ∈ heads r → good x = true.
Proof.
  revert n l x. induction r as [|a|k|r IHr s IHs|r IHr s IHs|r IHr]; intros n l x Hg H; cbn [good] in Hg.
  - by apply elem_of_nil in H.
  - by apply elem_of_nil in H.
  - apply elem_of_list_singleton in H as [= -> -> ->]. done.
  - apply andb_true_iff in Hg as [Hr Hs].
    apply heads_seq in H as [(r' & H & ->)|(n1 & n2 & -> & H1 & H)]; [|by eapply IHs].
    apply good_cat; [by eapply IHr|done].
  - apply andb_true_iff in Hg as [Hr Hs]. cbn in H. apply elem_of_app in H as [H|H]; [by eapply IHr|by eapply IHs].
  - pose proof Hg as Hg'. apply andb_true_iff in Hg as [Hr Hs]. apply heads_star in H as (r' & H & ->).
    apply good_cat; [by eapply IHr|done].
Qed.

(** * Transducers *)
Record transducer := Transducer {
  td_state : Type;
  td_step : td_state → Z → option (list action * td_state);
  td_end : td_state → option (list action) }.
Section transducer.
  Context (T : transducer).
  Fixpoint tr (q : td_state T) (w : string) : option trace :=
    match w with
    | "" => match td_end T q with Some n => Some (A <$> n) | None => None end
    | String c w =>
        match td_step T q (byte_of c) with
        | None => None
        | Some (n, q') => match tr q' w with Some t => Some ((A <$> n) ++ B c :: t) | None => None end
        end
    end.
  Lemma bytes_app t t' : bytes (t ++ t') = bytes t +:+ bytes t'.
  Proof. induction t as [|[a|c] t IH]; [done|exact IH|]. simpl. rewrite IH. done. Qed.
  Lemma bytes_acts n : bytes (A <$> n) = "".
  Proof. induction n as [|a n IH]; [done|]. exact IH. Qed.
  Lemma tr_bytes q w t : tr q w = Some t → bytes t = w.
  Proof.
    revert q t. induction w as [|c w IH]; intros q t H; simpl in H.
    - destruct (td_end T q); [|done]. injection H as <-. apply bytes_acts.
    - destruct (td_step T q (byte_of c)) as [[n q']|]; [|done]. destruct (tr q' w) as [t'|] eqn:E; [|done].
      injection H as <-. rewrite bytes_app, bytes_acts. simpl. by rewrite (IH _ _ E).
  Qed.
End transducer.

(** * The checker *)
Fixpoint list_eqb {A} (eqb : A → A → bool) (l l' : list A) : bool :=
  match l, l' with
  | [], [] => true
  | a :: l, a' :: l' => eqb a a' && list_eqb eqb l l'
  | _, _ => false
  end.
Lemma list_eqb_eq {A} (eqb : A → A → bool) l l' :
  (∀ a a', eqb a a' = true → a = a') → list_eqb eqb l l' = true → l = l'.
Proof.
  intros He. revert l'. induction l as [|a l IH]; intros [|a' l'] H; try done.
  simpl in H. apply andb_true_iff in H as [H1 H2]. f_equal; [by apply He|by apply IH].
Qed.
Global Instance action_eq_dec : EqDecision action.
Proof. solve_decision. Defined.
Definition act_eqb (a a' : action) : bool := bool_decide (a = a').
Lemma act_eqb_eq a a' : act_eqb a a' = true → a = a'.
Proof. apply bool_decide_eq_true_1. Qed.
Definition range_eqb (x y : Z * Z) : bool := (x.1 =? y.1) && (x.2 =? y.2).
Lemma range_eqb_eq x y : range_eqb x y = true → x = y.
Proof. destruct x, y. intros [H1%Z.eqb_eq H2%Z.eqb_eq]%andb_true_iff. simpl in *. by subst. Qed.
Fixpoint re_eqb (r s : re) : bool :=
  match r, s with
  | Eps, Eps => true
  | Act a, Act b => act_eqb a b
  | Cls l, Cls k => list_eqb range_eqb l k
  | Seq r r', Seq s s' => re_eqb r s && re_eqb r' s'
  | Alt r r', Alt s s' => re_eqb r s && re_eqb r' s'
  | Star r, Star s => re_eqb r s
  | _, _ => false
  end.
Lemma re_eqb_eq r s : re_eqb r s = true → r = s.
Proof.
  revert s. induction r; intros []; simpl; try done.
  - intros H%act_eqb_eq. by subst.
  - intros H%list_eqb_eq; [by subst|apply range_eqb_eq].
  - intros [H1 H2]%andb_true_iff. f_equal; auto.
  - intros [H1 H2]%andb_true_iff. f_equal; auto.
  - intros H. f_equal; auto.
Qed.
Fixpoint mem {A} (eqb : A → A → bool) (a : A) (l : list A) : bool :=
  match l with [] => false | b :: l => eqb a b || mem eqb a l end.
Lemma mem_In {A} (eqb : A → A → bool) a l : (∀ a a', eqb a a' = true → a = a') → mem eqb a l = true → a ∈ l.
Proof.
  intros He. induction l as [|b l IH]; [done|]. simpl. intros [H|H]%orb_true_iff.
  - apply He in H as ->. by left.
  - right. by apply IH.
Qed.
Fixpoint dedup {A} (eqb : A → A → bool) (l : list A) : list A :=
  match l with
  | [] => []
  | a :: l => let l := dedup eqb l in if mem eqb a l then l else a :: l
  end.
Lemma dedup_In {A} (eqb : A → A → bool) a l :
  (∀ a a', eqb a a' = true → a = a') → a ∈ dedup eqb l ↔ a ∈ l.
Proof.
  intros He. induction l as [|b l IH]; [done|]. simpl. destruct (mem eqb b (dedup eqb l)) eqn:Hm.
  - apply mem_In in Hm; [|done]. rewrite elem_of_cons, IH. split; [by right|]. intros [->|?]; [|done]. by apply IH.
  - rewrite !elem_of_cons, IH. done.
Qed.
Definition acts_eqb : list action → list action → bool := list_eqb act_eqb.
Lemma acts_eqb_eq l l' : acts_eqb l l' = true → l = l'.
Proof. apply list_eqb_eq, act_eqb_eq. Qed.

Definition byte_values : list Z := Z.of_nat <$> List.seq 0 256.
Lemma byte_values_all c : byte_of c ∈ byte_values.
Proof.
  apply elem_of_list_fmap. pose proof (N_ascii_bounded c) as Hc. exists (N.to_nat (N_of_ascii c)).
  split; [unfold byte_of; lia|]. apply elem_of_list_In, in_seq. lia.
Qed.

Section checker.
  Context (T : transducer) (eqb : td_state T → td_state T → bool).
  Context (eqb_eq : ∀ q q', eqb q q' = true → q = q').
  Notation pair := (td_state T * list re)%type.
  Definition pair_eqb (x y : pair) : bool := eqb x.1 y.1 && list_eqb re_eqb x.2 y.2.
  Lemma pair_eqb_eq x y : pair_eqb x y = true → x = y.
  Proof.
    destruct x, y. intros [H1%eqb_eq H2%list_eqb_eq]%andb_true_iff; [|apply re_eqb_eq]. simpl in *. by subst.
  Qed.
  (** The steps of the expressions that can read byte [c]. *)
  Fixpoint select (c : Z) (hs : list (list action * (cls * re))) : list (list action * re) :=
    match hs with
    | [] => []
    | (n, (l, r)) :: hs => if in_cls c l then (n, r) :: select c hs else select c hs
    end.
  (** Outer [None]: they differ. *)
  Definition check_byte (q : td_state T) (hs : list (list action * (cls * re))) (c : Z) : option (option pair) :=
    match td_step T q c, select c hs with
    | None, [] => Some None
    | Some (n, q'), (_ :: _) as sel =>
        if forallb (λ x, acts_eqb n x.1) sel then Some (Some (q', dedup re_eqb sel.*2)) else None
    | _, _ => None
    end.
  Definition check_end (q : td_state T) (ns : list (list action)) : bool :=
    match td_end T q, ns with
    | None, [] => true
    | Some n, (_ :: _) as ns => forallb (acts_eqb n) ns
    | _, _ => false
    end.
  Fixpoint check_bytes (q : td_state T) (hs : list (list action * (cls * re))) (l : list Z) (acc : list pair) :
      option (list pair) :=
    match l with
    | [] => Some acc
    | c :: l =>
        match check_byte q hs c with
        | None => None
        | Some None => check_bytes q hs l acc
        | Some (Some x) => check_bytes q hs l (if mem pair_eqb x acc then acc else x :: acc)
        end
    end.
  Definition check_pair (x : pair) : option (list pair) :=
    let '(q, rs) := x in
    if check_end q (rs ≫= nulls) then check_bytes q (rs ≫= heads) byte_values [] else None.
  (** All pairs reachable from [todo]; [None] if one of them is wrong or the bound is
      too small. *)
  Fixpoint explore (fuel : nat) (seen todo : list pair) : option (list pair) :=
    match fuel with
    | O => None
    | S fuel =>
        match todo with
        | [] => Some seen
        | x :: todo =>
            if mem pair_eqb x seen then explore fuel seen todo
            else match check_pair x with
                 | None => None
                 | Some l => explore fuel (x :: seen) (l ++ todo)
                 end
        end
    end.
  Definition check (fuel : nat) (q : td_state T) (r : re) : bool :=
    good r && match explore fuel [] [(q, [r])] with Some _ => true | None => false end.

  Lemma select_In c hs n r : (n, r) ∈ select c hs ↔ ∃ l, (n, (l, r)) ∈ hs ∧ in_cls c l = true.
  Proof.
    induction hs as [|[n' [l' r']] hs IH]; simpl.
    - split; [by intros ?%elem_of_nil|]. by intros (l & ?%elem_of_nil & _).
    - destruct (in_cls c l') eqn:Hc; [rewrite elem_of_cons|]; rewrite IH; split.
      + intros [[= -> ->]|(l & H & Hl)]; [exists l'; split; [by left|done]|]. exists l. split; [by right|done].
      + intros (l & H & Hl). apply elem_of_cons in H as [[= -> -> ->]|H]; [by left|]. right. by exists l.
      + intros (l & H & Hl). exists l. split; [by right|done].
      + intros (l & H & Hl). apply elem_of_cons in H as [[= -> -> ->]|H]; [congruence|]. by exists l.
  Qed.
  Lemma check_bytes_acc q hs l acc acc' : check_bytes q hs l acc = Some acc' → acc ⊆ acc'.
  Proof.
    revert acc. induction l as [|c l IH]; intros acc H; simpl in H; [by injection H as <-|].
    destruct (check_byte q hs c) as [[x|]|]; [|by apply IH|done]. apply IH in H.
    destruct (mem pair_eqb x acc); [done|]. intros y Hy. apply H. by right.
  Qed.
  Lemma check_bytes_spec q hs l acc acc' c :
    check_bytes q hs l acc = Some acc' → c ∈ l →
    ∃ o, check_byte q hs c = Some o ∧ match o with Some x => x ∈ acc' | None => True end.
  Proof.
    revert acc. induction l as [|d l IH]; intros acc H Hc; [by apply elem_of_nil in Hc|]. simpl in H.
    destruct (check_byte q hs d) as [o|] eqn:Hd; [|done].
    apply elem_of_cons in Hc as [->|Hc].
    - exists o. split; [done|]. destruct o as [x|]; [|done]. apply check_bytes_acc in H. apply H.
      destruct (mem pair_eqb x acc) eqn:Hm; [by apply mem_In in Hm; [|apply pair_eqb_eq]|by left].
    - destruct o; by eapply IH.
  Qed.
  (** What a successful exploration gives. *)
  Definition closed (V : list pair) : Prop :=
    ∀ x, x ∈ V → ∃ l, check_pair x = Some l ∧ l ⊆ V.
  Lemma explore_spec fuel seen todo V :
    explore fuel seen todo = Some V →
    (∀ x, x ∈ seen → ∃ l, check_pair x = Some l ∧ l ⊆ seen ++ todo) →
    seen ⊆ V ∧ todo ⊆ V ∧ closed V.
  Proof.
    revert seen todo. induction fuel as [|fuel IH]; intros seen todo H Hinv; simpl in H; [done|].
    destruct todo as [|x todo].
    - injection H as <-. split; [done|]. split; [by intros ? ?%elem_of_nil|]. intros x Hx.
      destruct (Hinv x Hx) as (l & H1 & H2). exists l. by rewrite app_nil_r in H2.
    - destruct (mem pair_eqb x seen) eqn:Hm.
      + apply mem_In in Hm; [|apply pair_eqb_eq]. apply IH in H as (H1 & H2 & H3).
        * split; [done|]. split; [|done]. intros y [->|Hy]%elem_of_cons; [by apply H1|by apply H2].
        * intros y Hy. destruct (Hinv y Hy) as (l & E & Hl). exists l. split; [done|]. intros z Hz.
          apply Hl in Hz. rewrite elem_of_app, elem_of_cons in Hz. rewrite elem_of_app.
          destruct Hz as [?|[->|?]]; [by left|by left|by right].
      + destruct (check_pair x) as [l|] eqn:Hx; [|done]. apply IH in H as (H1 & H2 & H3).
        * split; [intros y Hy; apply H1; by right|]. split; [|done].
          intros y [->|Hy]%elem_of_cons; [apply H1; by left|]. apply H2. apply elem_of_app. by right.
        * intros y [->|Hy]%elem_of_cons.
          { exists l. split; [done|]. intros z Hz. rewrite !elem_of_app. tauto. }
          destruct (Hinv y Hy) as (k & E & Hk). exists k. split; [done|]. intros z Hz.
          apply Hk in Hz. rewrite elem_of_app, elem_of_cons in Hz. rewrite !elem_of_app, elem_of_cons. tauto.
  Qed.
  Definition langs (rs : list re) (t : trace) : Prop := ∃ r, r ∈ rs ∧ lang r t.
  Definition goods (rs : list re) : Prop := ∀ r, r ∈ rs → good r = true.

  Lemma langs_nil rs : goods rs → ∀ n, langs rs (A <$> n) ↔ n ∈ rs ≫= nulls.
  Proof.
    intros Hg n. rewrite elem_of_list_bind. split.
    - intros (r & Hr & Hl). apply lang_steps in Hl; [|by apply Hg].
      destruct Hl as [(m & Hm & E)|(m & l & r' & c & t' & _ & _ & E & _)].
      + exists r. split; [|done]. assert (n = m) as ->; [|done].
        clear -E. revert m E. induction n as [|a n IH]; intros [|b m] E; try done. injection E as -> E. f_equal. by apply IH.
      + exfalso. clear -E. revert n E. induction m as [|a m IH]; intros [|b n] E; try done. injection E as -> E. by eapply IH.
    - intros (r & Hn & Hr). exists r. split; [done|]. apply lang_steps; [by apply Hg|]. left. by exists n.
  Qed.
  Lemma acts_byte_inj n m c d t t' : (A <$> n) ++ B c :: t = (A <$> m) ++ B d :: t' → n = m ∧ c = d ∧ t = t'.
  Proof.
    revert m. induction n as [|a n IH]; intros [|b m] E; try done.
    - by injection E as -> ->.
    - injection E as -> E. apply IH in E as (-> & -> & ->). done.
  Qed.
  Lemma langs_byte rs : goods rs → ∀ n c t,
    langs rs ((A <$> n) ++ B c :: t) ↔ ∃ r, (n, r) ∈ select (byte_of c) (rs ≫= heads) ∧ lang r t.
  Proof.
    intros Hg n c t. split.
    - intros (r & Hr & Hl). apply lang_steps in Hl; [|by apply Hg].
      destruct Hl as [(m & Hm & E)|(m & l & r' & d & t' & Hh & Hc & E & Ht)].
      + exfalso. clear -E. revert m E. induction n as [|a n IH]; intros [|b m] E; try done. injection E as -> E. by eapply IH.
      + apply acts_byte_inj in E as (-> & -> & ->). exists r'. split; [|done]. apply select_In. exists l.
        split; [|done]. apply elem_of_list_bind. by exists r.
    - intros (r' & Hs & Ht). apply select_In in Hs as (l & Hs & Hc). apply elem_of_list_bind in Hs as (r & Hh & Hr).
      exists r. split; [done|]. apply lang_steps; [by apply Hg|]. right. by exists n, l, r', c, t.
  Qed.
  Lemma goods_next rs c n : goods rs → ∀ r, (n, r) ∈ select c (rs ≫= heads) → good r = true.
  Proof.
    intros Hg r Hs. apply select_In in Hs as (l & Hs & _). apply elem_of_list_bind in Hs as (s & Hh & Hr).
    eapply good_heads; [|done]. by apply Hg.
  Qed.
  Lemma trace_cases (t : trace) : (∃ n, t = A <$> n) ∨ ∃ n c t', t = (A <$> n) ++ B c :: t'.
  Proof.
    induction t as [|[a|c] t IH].
    - left. by exists [].
    - destruct IH as [[n ->]|(n & c & t' & ->)]; [left; by exists (a :: n)|right; by exists (a :: n), c, t'].
    - right. by exists [], c, t.
  Qed.
  Lemma check_byte_spec q rs c o :
    goods rs → check_byte q (rs ≫= heads) (byte_of c) = Some o →
    match o with
    | None => td_step T q (byte_of c) = None ∧ ∀ n t, ¬ langs rs ((A <$> n) ++ B c :: t)
    | Some (q', rs') => goods rs' ∧ ∃ n, td_step T q (byte_of c) = Some (n, q') ∧
        ∀ m t, langs rs ((A <$> m) ++ B c :: t) ↔ m = n ∧ langs rs' t
    end.
  Proof.
    intros Hg H. unfold check_byte in H. destruct (td_step T q (byte_of c)) as [[n q']|].
    - destruct (select (byte_of c) (rs ≫= heads)) as [|x sel] eqn:Hsel; [done|].
      destruct (forallb _ _) eqn:Hall; [|done]. apply (inj Some) in H. rewrite <-Hsel in *. subst o.
      assert (∀ m r, (m, r) ∈ select (byte_of c) (rs ≫= heads) → m = n) as Heq.
      { intros m r Hm. apply elem_of_list_In in Hm. eapply forallb_forall in Hall; [|done].
        by apply acts_eqb_eq in Hall as ->. }
      assert (∀ r, r ∈ dedup re_eqb (select (byte_of c) (rs ≫= heads)).*2 ↔
        (n, r) ∈ select (byte_of c) (rs ≫= heads)) as Hin.
      { intros r. rewrite dedup_In by apply re_eqb_eq. rewrite elem_of_list_fmap. split.
        - intros ([m r'] & -> & Hm). by rewrite <-(Heq _ _ Hm).
        - intros Hm. by exists (n, r). }
      split; [intros r Hr; apply Hin in Hr; by eapply goods_next|].
      exists n. split; [done|]. intros m t. rewrite langs_byte by done. split.
      + intros (r & Hm & Ht). split; [by eapply Heq|]. exists r. split; [|done]. apply Hin.
        by rewrite <-(Heq _ _ Hm).
      + intros (-> & r & Hr & Ht). exists r. split; [by apply Hin|done].
    - destruct (select (byte_of c) (rs ≫= heads)) as [|x sel] eqn:Hsel; [|done]. injection H as <-.
      split; [done|]. intros n t Hl. apply langs_byte in Hl as (r & Hr & _); [|done]. rewrite Hsel in Hr.
      by apply elem_of_nil in Hr.
  Qed.
  Lemma check_end_spec q rs :
    goods rs → check_end q (rs ≫= nulls) = true → ∀ n, langs rs (A <$> n) ↔ td_end T q = Some n.
  Proof.
    intros Hg H n. rewrite langs_nil by done. unfold check_end in H. destruct (td_end T q) as [m|].
    - destruct (rs ≫= nulls) as [|x l] eqn:Hl; [done|].
      assert (∀ y, y ∈ x :: l → y = m) as Heq.
      { intros y Hy. apply elem_of_list_In in Hy. eapply forallb_forall in H; [|done]. by apply acts_eqb_eq in H. }
      split; [intros Hn; by rewrite (Heq n Hn)|]. intros [= ->]. rewrite (Heq x) by by left. by left.
    - destruct (rs ≫= nulls) as [|x l]; [|done]. split; [by intros ?%elem_of_nil|done].
  Qed.
  Lemma closed_spec V : closed V → ∀ w q rs, (q, rs) ∈ V → goods rs →
    ∀ t, bytes t = w → langs rs t ↔ tr T q w = Some t.
  Proof.
    intros HV w. induction w as [|c w IH]; intros q rs Hin Hg t Hb.
    - destruct (HV _ Hin) as (l & Hc & _). unfold check_pair in Hc. destruct (check_end _ _) eqn:He; [|done].
      destruct (trace_cases t) as [[n ->]|(n & d & t' & ->)].
      + rewrite (check_end_spec _ _ Hg He). simpl. destruct (td_end T q) as [m|]; [|done]. split.
        * by intros [= ->].
        * intros [= E]. f_equal. clear -E. revert n E. induction m as [|a m IHm]; intros [|b n] E; try done.
          injection E as -> E. f_equal. by apply IHm.
      + rewrite bytes_app, bytes_acts in Hb. done.
    - destruct (HV _ Hin) as (l & Hc & Hl). unfold check_pair in Hc. destruct (check_end _ _) eqn:He; [|done].
      destruct (trace_cases t) as [[n ->]|(n & d & t' & ->)].
      { by rewrite bytes_acts in Hb. }
      rewrite bytes_app, bytes_acts in Hb. simpl in Hb. injection Hb as -> Hb.
      destruct (check_bytes_spec _ _ _ _ _ (byte_of c) Hc (byte_values_all c)) as (o & Ho & Hx).
      pose proof (check_byte_spec _ _ _ _ Hg Ho) as Hs. destruct o as [[q' rs']|].
      + destruct Hs as (Hg' & m & Hst & Hs). rewrite Hs. cbn [tr]. rewrite Hst.
        rewrite (IH q' rs' (Hl _ Hx) Hg' t' Hb). destruct (tr T q' w) as [u|].
        * split.
          { intros [-> [= ->]]. done. }
          intros [= E]. apply acts_byte_inj in E as (-> & _ & ->). done.
        * split; [by intros [_ ?]|done].
      + destruct Hs as [Hst Hs]. cbn [tr]. rewrite Hst. split; [by intros ?%Hs|done].
  Qed.
  Lemma check_sound fuel q r :
    check fuel q r = true → ∀ w t, tr T q w = Some t ↔ lang r t ∧ bytes t = w.
  Proof.
    unfold check. intros [Hg He]%andb_true_iff w t. destruct (explore _ _ _) as [V|] eqn:Hx; [|done].
    apply explore_spec in Hx as (_ & HV & Hc); [|by intros ? ?%elem_of_nil].
    assert (goods [r]) as Hgs by by intros ? ->%elem_of_list_singleton.
    assert (lang r t ↔ langs [r] t) as ->.
    { split; [intros H; exists r; split; [by left|done]|]. by intros (s & ->%elem_of_list_singleton & H). }
    split.
    - intros H. pose proof (tr_bytes T _ _ _ H) as Hb. split; [|done].
      eapply closed_spec; [done|apply HV; by left|done|done|done].
    - intros [H Hb]. eapply closed_spec; [done|apply HV; by left|done|done|done].
  Qed.
End checker.
