(** Templates as users write them: literal text and placeholders. The theorems about
    formatting, path generation and discovery are stated with this vocabulary; the model
    itself works on plain text. *)
From Coq Require Import ZArith NArith List Ascii String Bool.
From Verif Require Import Base Str Numerals_Model Partitions_Model Format_Model.
Import ListNotations.
Open Scope list_scope.

(** A placeholder [{name.attr[index]:spec}]. *)
Record hole := Hole { h_name : str; h_accs : list accessor; h_spec : str }.
Inductive tok := TLit (text : str) | THole (h : hole).
Definition template := list tok.

(** Its text. *)
Definition print_acc (a : accessor) : str :=
  match a with Attr n => $"." ++ n | Idx k => $"[" ++ k ++ $"]" end.
Definition print_hole (h : hole) : str :=
  $"{" ++ h_name h ++ flat_map print_acc (h_accs h) ++
  match h_spec h with [] => [] | s => $":" ++ s end ++ $"}".
Definition print_tok (t : tok) : str := match t with TLit s => s | THole h => print_hole h end.
Definition print (t : template) : str := flat_map print_tok t.

Definition avoids (bad : str) (s : str) : Prop := Forall (fun c => ~ In c bad) s.

(** Literal text and specs have no braces. Names and attributes have no characters that mean
    something in a placeholder, are not empty, names are not numbers; attributes are not
    attributes every Python object has. Indexes are written in their normal form ("7", not
    "07"). *)
Definition name_ok (n : str) : Prop := n <> [] /\ all_digits n = false /\ avoids $"{}[].:!" n.
Definition attr_ok (n : str) : Prop := n <> [] /\ avoids $"{}[].:!" n /\ own_attribute n = false.
Definition idx_ok (k : str) : Prop :=
  k <> [] /\ avoids $"{}[]" k /\ (all_digits k = true -> py_str (digits_value k) = k).
Definition acc_ok (a : accessor) : Prop := match a with Attr n => attr_ok n | Idx k => idx_ok k end.
Definition hole_ok (h : hole) : Prop :=
  name_ok (h_name h) /\ Forall acc_ok (h_accs h) /\ avoids $"{}" (h_spec h).
Definition tok_ok (t : tok) : Prop :=
  match t with TLit s => avoids $"{}" s | THole h => hole_ok h end.
Definition template_ok (t : template) : Prop := Forall tok_ok t.

(** Filling in: a bare placeholder that has a value becomes that text. *)
Definition bare (h : hole) : Prop := h_accs h = [] /\ h_spec h = [].
Definition fill_tok (values : list (str * str)) (t : tok) : tok :=
  match t with
  | TLit s => TLit s
  | THole h => match dget str_eqb values (h_name h) with Some v => TLit v | None => THole h end
  end.
Definition fill (values : list (str * str)) (t : template) : template := map (fill_tok values) t.
(** Placeholders to be filled are bare. *)
Definition fillable (values : list (str * str)) (t : template) : Prop :=
  forall h, In (THole h) t -> dmem str_eqb values (h_name h) = true -> bare h.
