(** Format strings in general: literal text with escaped braces, placeholders with any accessors
    and specs that contain placeholders themselves. *)
From Coq Require Import ZArith NArith List Ascii String Bool.
From Verif Require Import Base Str Numerals_Model Partitions_Model Format_Model Template_Spec.
Import ListNotations.
Open Scope list_scope.

Inductive part := Text (c : ascii) | Field (name : str) (accs : list accessor) (spec : list part).

(** What a placeholder may be made of: the characters that would end the name, attribute or index
    do not occur in it. *)
Definition name_fine (n : str) : Prop := n <> [] /\ all_digits n = false /\ avoids $"{}[.:!" n.
Definition acc_fine (a : accessor) : Prop :=
  match a with Attr n => n <> [] /\ avoids $"{}[.:!" n | Idx k => k <> [] /\ avoids $"]" k end.
(** Every opening brace has its closing one. *)
Fixpoint balanced (depth : nat) (s : str) : bool :=
  match s with
  | [] => match depth with O => true | S _ => false end
  | c :: s' => if c =c "{" then balanced (S depth) s'
               else if c =c "}" then match depth with O => false | S d => balanced d s' end
               else balanced depth s'
  end.

(** The parts a text is read as. Specs may contain placeholders, and those specs text. A colon
    without a spec means nothing. *)
Inductive reads : nat -> str -> list part -> Prop :=
| reads_end : forall n, reads n [] []
| reads_text : forall n c s t, ~ In c $"{}" -> reads n s t -> reads n (c :: s) (Text c :: t)
| reads_escape : forall n c s t, In c $"{}" -> reads n s t -> reads n (c :: c :: s) (Text c :: t)
| reads_field : forall n name accs sp spec s t, name_fine name -> Forall acc_fine accs ->
    reads_spec n sp spec -> reads (S n) s t ->
    reads (S n) ($"{" ++ (name ++ flat_map print_acc accs) ++ sp ++ $"}" ++ s) (Field name accs spec :: t)
with reads_spec : nat -> str -> list part -> Prop :=
| no_spec : forall n, reads_spec n [] []
| some_spec : forall n sp spec, balanced 0 sp = true -> reads n sp spec -> reads_spec n ($":" ++ sp) spec.
(** [Formatter] allows two levels of specs. *)
Definition template_of (s : str) (t : list part) : Prop := reads 2 s t.

(** The text of a template, without escapes. *)
Fixpoint print_part (p : part) : str :=
  match p with
  | Text c => [c]
  | Field name accs spec =>
      $"{" ++ (name ++ flat_map print_acc accs) ++
      match flat_map print_part spec with [] => [] | s => $":" ++ s end ++ $"}"
  end.
Definition print_parts (t : list part) : str := flat_map print_part t.

(** Indexes that are numbers are written as Python writes them. *)
Definition normal_acc (a : accessor) : accessor :=
  match a with Idx k => Idx (if all_digits k then py_str (digits_value k) else k) | a => a end.
Fixpoint normal (p : part) : part :=
  match p with
  | Text c => Text c
  | Field name accs spec => Field name (map normal_acc accs) (map normal spec)
  end.

(** Attributes every Python object has are not modelled. *)
Inductive ordinary : part -> Prop :=
| ordinary_text : forall c, ordinary (Text c)
| ordinary_field : forall name accs spec,
    Forall (fun a => match a with Attr n => own_attribute n = false | Idx _ => True end) accs ->
    Forall ordinary spec -> ordinary (Field name accs spec).

(** Filling in: placeholders that have a value are bare and become that text. *)
Fixpoint fill_part (values : list (str * str)) (p : part) : list part :=
  match p with
  | Text c => [Text c]
  | Field name accs spec =>
      match dget str_eqb values name with
      | Some v => map Text v
      | None => [Field name accs (flat_map (fill_part values) spec)]
      end
  end.
Definition fill_parts (values : list (str * str)) (t : list part) : list part := flat_map (fill_part values) t.
Inductive fillable_part (values : list (str * str)) : part -> Prop :=
| fillable_text : forall c, fillable_part values (Text c)
| fillable_given : forall name, fillable_part values (Field name [] [])
| fillable_left : forall name accs spec, dmem str_eqb values name = false ->
    Forall (fillable_part values) spec -> fillable_part values (Field name accs spec).

(** No braces in the literal text: nothing was escaped. *)
Inductive unescaped : part -> Prop :=
| unescaped_text : forall c, ~ In c $"{}" -> unescaped (Text c)
| unescaped_field : forall name accs spec, Forall unescaped spec -> unescaped (Field name accs spec).
