(** What the data options of a program mean. *)
From Verif Require Import Base Num Csv_Spec Sexpr_Model Dispatch_Model Data_Model Data_Spec Cmd_Model Style_Spec.

Definition is_text (x : expr) (t : str) : Prop := x = EVal t \/ x = ELit t.
(** The values of a column of a CSV file: of every row behind the header, the field at the
    (first) place of the column's name in the header. A file without any text has no values. *)
Inductive csv_values (txt column : str) : list str -> Prop :=
| cv_empty : txt = [] -> csv_values txt column []
| cv_rows h rows i vs : file txt (h :: rows) -> nth_error h i = Some column -> (forall j, j < i -> nth_error h j <> Some column) ->
    Forall2 (fun row v => nth_error row i = Some v) rows vs -> csv_values txt column vs.
(** (csv FILE COLUMN). *)
Definition csv_data (read : str -> option str) (e : list expr) (vs : list str) : Prop :=
  exists w p c path column txt r, e = EList [w; p; c] :: r /\ word "csv" w /\ is_text p path /\ is_text c column /\
    read path = Some txt /\ csv_values txt column vs.
Definition headed (n : string) (e : list expr) : Prop := exists w a r, e = EList (w :: a) :: r /\ word n w.
(** A data option: (csv FILE COLUMN), (list a b ...) or a b ...; the texts that are written. *)
Definition written (l : list expr) (vs : list str) : Prop := Forall2 is_text l vs.
Inductive data_means (read : str -> option str) : list expr -> list str -> Prop :=
| dm_csv e vs : csv_data read e vs -> data_means read e vs
| dm_list w l r vs : word "list" w -> written l vs -> data_means read (EList (w :: l) :: r) vs
| dm_bare l vs : written l vs -> data_means read l vs.
(** No file ends in a comma (see C08). *)
Definition plain_files (W : world) : Prop := forall p t, w_read_file W p = Some t -> no_final_comma t.
