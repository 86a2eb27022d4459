(** Vocabulary for the technical-indicator factory. *)
From Coq Require Import Reals String Ascii.
From Verif Require Import Series Feat_Model TAFactory_Model.
Local Open Scope nat_scope.
Local Open Scope string_scope.

(** A name without punctuation, blanks or line breaks. *)
Definition plain_char (c : ascii) : Prop := ~ In c (list_ascii_of_string "()[], =?" ++ [newline]).
Definition plain_name (s : string) : Prop := s <> "" /\ Forall plain_char (list_ascii_of_string s).

(** A TA-Lib doc string: NAME(a, b[, k=?, l=?]) or NAME(a, b), followed by nothing or by further lines. *)
Definition comma_separated (l : list string) : string := String.concat ", " l.
Definition signature_of (args kwargs : list string) : string :=
  comma_separated args ++ match kwargs with [] => "" | _ => "[, " ++ comma_separated (map (fun k => k ++ "=?") kwargs) ++ "]" end.
Definition doc_of (name : string) (args kwargs : list string) (more : string) : string :=
  name ++ "(" ++ signature_of args kwargs ++ ")" ++ more.
Definition further_lines (more : string) : Prop := more = "" \/ exists r, more = String newline r.

(** The column used for an argument. *)
Definition instead (arg col a : string) : string := if String.eqb a arg then col else a.
(** What may be given for col_to_transform, and the columns it stands for: functions of one series called real take a name,
    functions of real0 and real1 a list of two names, all others use columns called like their arguments. *)
Inductive inputs (args : list string) : col_arg -> list string -> Prop :=
| named_inputs col : ~ In "real" args -> ~ (In "real0" args /\ In "real1" args) -> inputs args col args
| one_input c : In "real" args -> ~ (In "real0" args) -> ~ (In "real1" args) -> inputs args (CStr c) (map (instead "real" c) args)
| two_inputs c0 c1 : ~ In "real" args -> In "real0" args -> In "real1" args ->
    inputs args (CList [Some c0; Some c1])
      (map (fun a => if String.eqb a "real0" then c0 else if String.eqb a "real1" then c1 else a) args).

(** Renaming by a dictionary, all of whose keys must be known. *)
Definition entry {B} (m : list (string * B)) (k : string) (v : B) : Prop := In (k, v) m.
Definition dictionary {B} (m : list (string * B)) : Prop := NoDup (map fst m).
Definition renames (m : list (string * string)) (c c' : string) : Prop := entry m c c' \/ c' = c /\ ~ In c (map fst m).
Definition keys_within {B} (m : list (string * B)) (l : list string) : Prop := forall k, In k (map fst m) -> In k l.
Inductive mapped (cols : list string) : map_arg -> list string -> Prop :=
| not_mapped : mapped cols MNone cols
| mapped_by m cols' : keys_within m cols -> Forall2 (renames m) cols cols' -> mapped cols (MDict m) cols'.
(** What may be given for kw_args, and what is passed on. *)
Inductive keywords {V} (names : list string) : option (list (string * V)) -> list (string * V) -> Prop :=
| no_keywords : keywords names None []
| some_keywords k : keys_within k names -> keywords names (Some k) k.

(** Arguments of the expected form: no surplus column names, no first column called real1. *)
Definition tidy (col : col_arg) : Prop :=
  match col with
  | CList l => List.length l <= 2 /\ (forall c0 r, l = Some c0 :: r -> c0 <> "real1")
  | _ => True
  end.
(** Row i of the output holds the values of the returned series at position i. *)
Definition rows_hold (o : ta_output) (rows : list (list (ext R))) : Prop :=
  match o with
  | One s => rows = map (fun x => [x]) s
  | Several l => forall s, hd_error l = Some s -> List.length rows = List.length s /\
      forall i row, nth_error rows i = Some row -> List.length row = List.length l /\
        forall j c, nth_error l j = Some c -> forall x, nth_error c i = Some x -> nth_error row j = Some x
  end.
Definition proper (m : map_arg) : Prop := match m with MDict m => dictionary m | _ => True end.
(** A transformer that applies the TA-Lib function to the named columns of a frame, in this order, with these keywords. *)
Definition runs {V} (f : ta_func V) (cols : list string) (k : list (string * V)) (t : frame -> result (list (list (ext R)))) : Prop :=
  forall X, ((exists c, In c cols /\ ~ In c (map fst (f_cols X))) -> t X = Err ValueError) /\
    (forall columns, Forall2 (fun c v => lookup c X = Some v) cols columns ->
       match ta_run V f columns k with
       | Ok o => exists rows, t X = Ok rows /\
           ((forall l, o = Several l -> Forall (fun c => List.length c = List.length (hd [] l)) l) -> rows_hold o rows)
       | Err e => t X = Err e
       end).

(** Pieces with the separator between them. *)
Fixpoint joined (sep : text) (l : list text) : text :=
  match l with [] => [] | [x] => x | x :: r => (x ++ sep ++ joined sep r)%list end.
