(** Model of how internal/taskset/parser reads a file: the tags of its structs and of
    the targets and tasks, with gohcl as in HclModel.v. *)
From Coq Require Import String Ascii.
From stdpp Require Import gmap list strings numbers.
From Verif Require Import GoStrings HclModel TasksetModel.
Local Open Scope Z_scope.

(** * gohcl with a field tagged remain *)
Section rest.
  Context {A : Type}.
  Implicit Types (fs : list (field A)).

  (** hclsyntax/structure.go, Body.PartialContent: as Content, but what is left over is
      allowed.  That no attribute is given twice is checked by the parser. *)
  Definition rest_ok fs (x : block) : bool :=
    bool_decide (length x.1 = label_count fs) && bool_decide (NoDup (b_attrs x.2).*1).
  (** The same: the body that remains, with all hidden that the struct has read.  (Hidden by name,
      here and there.) *)
  Definition leftover fs (b : body) : body :=
    Body (List.filter (λ p : string * hval, negb (bool_decide (p.1 ∈ attr_names fs))) (b_attrs b))
      (List.filter (λ p : string * block, negb (bool_decide (p.1 ∈ block_names fs))) (b_blocks b)).
  (** gohcl/decode.go, decodeBodyToStruct and decodeBlockToValue: [keep] sets the field tagged
      remain, of the type hcl.Body. *)
  Definition decode_rest fs (keep : body → A → A) (zero : A) (x : block) : option A :=
    if rest_ok fs x then
      effects ← mapM (decode_field x.2) (live fs);
      Some (set_labels fs x.1 (keep (leftover fs x.2) (foldl (λ a f, f a) zero effects)))
    else None.
End rest.
(** A field with the kind block, where the structs of the slice have such a field.  Nothing is ever
    written. *)
Definition blocks_rest {A B} (n : string) (fs : list (field B)) (keep : body → B → B) (zero : B)
    (set : list B → A → A) : field A :=
  FBlock n true (λ _, []) (λ l, set <$> mapM (decode_rest fs keep zero) l).

Section structs.
  Variable L : hcl_lib.
  Notation text := (text_codec L). Notation texts := (texts_codec L). Notation int := (int_codec L).

  (** internal/taskset/parser/parser.go:19-24. *)
  Definition target_fields : list (field (target_block body)) :=
    [FLabel "type" tb_type (λ x '(TargetBlock a b c), TargetBlock x b c);
     FLabel "name" tb_id (λ x '(TargetBlock a b c), TargetBlock a x c)].
  Definition target_zero : target_block body := TargetBlock "" "" (Body [] []).
  Definition target_keep (x : body) (t : target_block body) : target_block body :=
    let '(TargetBlock a b _) := t in TargetBlock a b x.
  (** internal/taskset/parser/parser.go:26-36. *)
  Definition task_fields : list (field (task_block body)) :=
    [FLabel "type" kb_type (λ x '(TaskBlock a b c d e f g), TaskBlock x b c d e f g);
     FLabel "name" kb_id (λ x '(TaskBlock a b c d e f g), TaskBlock a x c d e f g);
     attr "target" false text kb_target (λ x '(TaskBlock a b c d e f g), TaskBlock a b x d e f g);
     attr "after" false texts kb_after (λ x '(TaskBlock a b c d e f g), TaskBlock a b c x e f g);
     attr "provides" false texts kb_provide (λ x '(TaskBlock a b c d e f g), TaskBlock a b c d x f g);
     attr "requires" false texts kb_require (λ x '(TaskBlock a b c d e f g), TaskBlock a b c d e x g)].
  Definition task_zero : task_block body := TaskBlock "" "" "" [] [] [] (Body [] []).
  Definition task_keep (x : body) (t : task_block body) : task_block body :=
    let '(TaskBlock a b c d e f _) := t in TaskBlock a b c d e f x.
  (** internal/taskset/parser/parser.go:14-17. *)
  Definition doc_fields : list (field (ts_doc body)) :=
    [blocks_rest "target" target_fields target_keep target_zero (λ x '(TsDoc a b), TsDoc x b);
     blocks_rest "task" task_fields task_keep task_zero (λ x '(TsDoc a b), TsDoc a x)].
  Definition doc_zero : ts_doc body := TsDoc [] [].

  (** internal/taskset/demo/demo.go:35-42: the fields with a tag, MaxConcurrency and String. *)
  Definition demo_fields : list (field (Z * string)) :=
    [attr "max_concurrency" false int fst (λ x '(a, b), (x, b));
     attr "string" true text snd (λ x '(a, b), (a, x))].
  (** internal/taskset/pg/pg.go:63-66. *)
  Definition pg_fields : list (field string) := [attr "sql" true text id (λ x _, x)].
  (** internal/taskset/sh/sh.go:63-66. *)
  Definition sh_fields : list (field (list string)) := [attr "args" true texts id (λ x _, x)].
  (** internal/taskset/pg/pg.go:31-33 and internal/taskset/sh/sh.go:31-33, and the demo tasks (demo/echo.go:12-14,
      fail.go:12-14, rev.go:8-10, rot13.go:8-10, sleep.go:12-15): no field has a tag; the embedded
      base.Task is not looked into. *)
  Definition no_fields : list (field unit) := [].
  (** internal/taskset/parser/parser.go:95 and 127: the same struct is filled in that NewTarget or NewTask made. *)
  Definition hcl_decoder : ts_decoder body :=
    TsDecoder
      (λ t c, match t with
              | TsDemoTarget n s => (λ p, TsDemoTarget p.1 p.2) <$> decode demo_fields (n, s) ([], c)
              | t => (λ _, t) <$> decode no_fields tt ([], c)
              end)
      (λ x c, match x with
              | TsDemo d => (λ _, TsDemo d) <$> decode no_fields tt ([], c)
              | TsPg sql => TsPg <$> decode pg_fields sql ([], c)
              | TsSh args => TsSh <$> decode sh_fields args ([], c)
              end).

  (** An error of Parse: of the HCL, or of a target or task. *)
  Inductive task_file_error := BadHcl | BadEntry (e : ts_error).
  (** internal/taskset/parser/parser.go:44-77, given the files that can be read.  *)
  Definition parse_task_file (fs : gmap string ts_factory) (files : gmap string string) (name : string)
      : task_file_error + (gmap string (gmap string ts_target) * gmap string ts_task) :=
    match src ← files !! name; b ← hl_read L src; decode doc_fields doc_zero ([], b) with
    | None => inl BadHcl
    | Some d => match ts_parse hcl_decoder fs d with inl e => inl (BadEntry e) | inr r => inr r end
    end.
End structs.
