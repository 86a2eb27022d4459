(** Model of mizarlabs/transformers/technical/factory.py. *)
From Coq Require Import Reals String Ascii.
From Verif Require Import Series Feat_Model.
Local Open Scope nat_scope.

(** * Python strings, as lists of characters *)
Definition text := list ascii.
Definition newline : ascii := "010"%char.

Fixpoint starts_with (p s : text) : bool :=
  match p, s with
  | [], _ => true
  | a :: p', b :: s' => Ascii.eqb a b && starts_with p' s'
  | _, [] => false
  end.
(** `s.split(sep)` for a non-empty separator: [skip] characters of a separator found are still to be passed over. *)
Fixpoint split_at (sep : text) (skip : nat) (acc s : text) : list text :=
  match s with
  | [] => [rev acc]
  | c :: r =>
    match skip with
    | S k => split_at sep k acc r
    | 0 => if starts_with sep s then rev acc :: split_at sep (List.length sep - 1) [] r else split_at sep 0 (c :: acc) r
    end
  end.
Definition split (sep s : text) : list text := split_at sep 0 [] s.
(** `s.strip(chars)`. *)
Fixpoint lstrip (chars s : text) : text :=
  match s with
  | c :: r => if existsb (Ascii.eqb c) chars then lstrip chars r else s
  | [] => []
  end.
Definition strip (chars s : text) : text := rev (lstrip chars (rev (lstrip chars s))).

(** `re.search(r"\((.+)\)", s).group(1)`: at the first opening parenthesis that is followed, on the same line and after at
    least one character, by a closing one, everything up to the last of these. *)
Fixpoint line_of (s : text) : text :=
  match s with c :: r => if Ascii.eqb c newline then [] else c :: line_of r | [] => [] end.
Fixpoint up_to_last_closing (s : text) : option text :=
  match s with
  | [] => None
  | c :: r => match up_to_last_closing r with
              | Some g => Some (c :: g)
              | None => if Ascii.eqb c ")" then Some [] else None
              end
  end.
Fixpoint search_group (s : text) : option text :=
  match s with
  | [] => None
  | c :: r => if Ascii.eqb c "("
              then match up_to_last_closing (line_of r) with
                   | Some (a :: g) => Some (a :: g)
                   | _ => search_group r
                   end
              else search_group r
  end.

(** * The factory *)
Section Factory.
  (** Values of keyword arguments. *)
  Variable V : Type.

  (** What a TA-Lib function returns: one series or a tuple of series. *)
  Inductive ta_output := One (s : list (ext R)) | Several (l : list (list (ext R))).
  (** A TA-Lib function: its doc string and its effect on columns and keyword arguments. *)
  Record ta_func := { ta_doc : option string; ta_run : list (list (ext R)) -> list (string * V) -> result ta_output }.
  (** ta_func_dict = talib.__dict__ (line 21). *)
  Definition ta_dict := list (string * ta_func).

  (** get_ta_func (lines 71-86). *)
  Definition get_ta_func (d : ta_dict) (name : string) : result ta_func :=
    match find (fun p => String.eqb (fst p) name) d with Some p => Ok (snd p) | None => Err ValueError end.

  (** get_args_kwargs (lines 44-69). `re.search` rejects a missing doc string; `.group` fails if there is no match. *)
  Definition parse_signature (signature : text) : result (list string * option (list string)) :=
    let str := string_of_list_ascii in
    match split (list_ascii_of_string "[, ") signature with
    | [args_names] => Ok (map str (split (list_ascii_of_string ", ") args_names), None)
    | [args_names; kwargs_names] =>
        Ok (map str (split (list_ascii_of_string ", ") args_names),
            Some (map str (split (list_ascii_of_string "=?, ") (strip (list_ascii_of_string "=?]") kwargs_names))))
    | _ => Err ValueError
    end.
  Definition get_args_kwargs (d : ta_dict) (name : string) : result (list string * option (list string)) :=
    do f <- get_ta_func d name ;;
    match ta_doc f with
    | None => Err TypeError
    | Some doc => match search_group (list_ascii_of_string doc) with
                  | None => Err AttributeError
                  | Some signature => parse_signature signature
                  end
    end.

  (** Arguments of create_transformer: col_to_transform is None, a string, a list (None for an element that is no string)
      or something else; col_to_transform_mapping is None, a dictionary (of strings) or something else. *)
  Inductive col_arg := CNone | CStr (s : string) | CList (l : list (option string)) | COther.
  Inductive map_arg := MNone | MDict (m : list (string * string)) | MOther.

  (** `l[l.index(x)] = v`: the first occurrence. *)
  Fixpoint set_first (x v : string) (l : list string) : list string :=
    match l with a :: r => if String.eqb a x then v :: r else a :: set_first x v r | [] => [] end.
  (** `x in l`, `d[x]`. *)
  Definition mem (x : string) (l : list string) : bool := existsb (String.eqb x) l.
  Definition assoc {B} (x : string) (m : list (string * B)) : option B := option_map snd (find (fun p => String.eqb (fst p) x) m).

  (** _check_and_set_args (lines 148-217), in its three steps. *)
  Definition set_real (args : list string) (col : col_arg) : result (list string) :=
    if mem "real" args then match col with CStr c => Ok (set_first "real" c args) | _ => Err ValueError end else Ok args.
  Definition set_real01 (args : list string) (col : col_arg) : result (list string) :=
    if mem "real0" args && mem "real1" args then
      match col with
      | CList l =>
          if forallb (fun o => match o with Some _ => true | None => false end) l then
            match l with
            | Some c0 :: Some c1 :: _ => Ok (set_first "real1" c1 (set_first "real0" c0 args))
            | _ => Err IndexError
            end
          else Err ValueError
      | _ => Err ValueError
      end
    else Ok args.
  Definition apply_mapping (args : list string) (m : map_arg) : result (list string) :=
    match m with
    | MNone => Ok args
    | MOther => Err TypeError
    | MDict m =>
        if forallb (fun p => mem (fst p) args) m
        then Ok (map (fun a => match assoc a m with Some c => c | None => a end) args)
        else Err ValueError
    end.
  Definition check_and_set_args (args : list string) (col : col_arg) (m : map_arg) : result (list string) :=
    do args <- set_real args col ;;
    do args <- set_real01 args col ;;
    apply_mapping args m.

  (** _check_and_set_kwargs (lines 219-255). *)
  Definition check_and_set_kwargs (kw : option (list (string * V))) (names : option (list string)) : result (list (string * V)) :=
    match names, kw with
    | None, Some _ => Err ValueError
    | Some ns, Some k => if forallb (fun p => mem (fst p) ns) k then Ok k else Err ValueError
    | _, None => Ok []
    end.

  (** Lines 135-142: the output as rows. TA-Lib returns no empty tuple (which `pd.concat` would reject). *)
  Definition rows_of (o : ta_output) : list (list (ext R)) :=
    match o with
    | One s => map (fun x => [x]) s
    | Several [] => []
    | Several (s :: r) => map (fun i => map (fun c => nth i c NaN) (s :: r)) (seq 0 (List.length s))
    end.
  (** ta_func_transformed (lines 123-144), for a DataFrame. *)
  Definition transformed (f : ta_func) (args : list string) (kw : list (string * V)) (X : frame) : result (list (list (ext R))) :=
    do _ <- raise_if (negb (forallb (fun a => mem a (map fst (f_cols X))) args)) ValueError ;;
    do columns <- mapM (fun a => column a X) args ;;
    do out <- ta_run f columns kw ;;
    Ok (rows_of out).
  (** create_transformer (lines 88-146). *)
  Definition create_transformer (d : ta_dict) (name : string) (col : col_arg) (m : map_arg) (kw : option (list (string * V)))
    : result (frame -> result (list (list (ext R)))) :=
    do f <- get_ta_func d name ;;
    do ak <- get_args_kwargs d name ;;
    do args <- check_and_set_args (fst ak) col m ;;
    do kw <- check_and_set_kwargs kw (snd ak) ;;
    Ok (transformed f args kw).
End Factory.
