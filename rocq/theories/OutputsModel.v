(** The output methods of a built model (/repo/instancespace/model.py:80-148) called one after the other
    on one output directory, in any order and any number of times.  Definitions only. *)
From Verif Require Export SerialModel CrashModel DrawModel.
Set Implicit Arguments.
Open Scope nat_scope.
Open Scope list_scope.

(** What a file holds: a table (to_csv), a plot (savefig), the labels of the algorithms (savemat). *)
Inductive content := CTable (t : SerialModel.table) | CPlot (p : plot) | CLabels (l : list string).
Definition disk := string -> option content.
Definition store (n : string) (c : content) (d : disk) : disk := fun f => if String.eqb f n then Some c else d f.

(** A call that writes one file, or raises *)
Definition fcall := res serr (string * content).
Definition table_call (w : write) : fcall := match w with Ok (n, t) => Ok (n, CTable t) | Err e => Err e end.
Definition plot_call (w : gcall) : fcall := match w with Ok (n, p) => Ok (n, CPlot p) | Err e => Err e end.

Section Output.
  (** which files the operating system lets be opened *)
  Variable can_write : string -> bool.
  (** _serialisers.py:29-394: the calls are made one after the other until one raises *)
  Fixpoint make_calls (l : list fcall) (d : disk) : disk * option serr :=
    match l with
    | [] => (d, None)
    | Err e :: _ => (d, Some e)
    | Ok (n, c) :: rest => if can_write n then make_calls rest (store n c d) else (d, Some EWrite)
    end.
  Variable colours : SerialModel.table.
  Variable log10p1 : num -> num.
  (** options.trace.use_sim and data.x.shape[1] *)
  Variable use_sim : bool.
  Variable w : nat.
  (** is the output directory a directory? *)
  Variable is_dir : bool.

  (** model.py:80-98 [save_to_csv], 100-114 [save_for_web], 116-133 [save_graphs], 135-148 [save_to_mat] *)
  Inductive method := SaveToCsv | SaveForWeb | SaveGraphs | SaveToMat.
  (** The files after the method, and what it raises.  save_to_mat (_serialisers.py:721-733) prints what
      savemat raises, and returns. *)
  Definition call (s : method) (m : model) (d : disk) : disk * option serr :=
    match s with
    | SaveToCsv => if is_dir then make_calls (map table_call (csv_calls m)) d else (d, Some ENotDirectory)
    | SaveForWeb => if is_dir then make_calls (map table_call (web_calls colours m)) d else (d, Some ENotDirectory)
    | SaveGraphs =>
        if is_dir then
          if Nat.eqb (length (m_x m)) 0 || Nat.eqb (length (m_y_raw m)) 0 then (d, Some EEmpty)
          else make_calls (map plot_call (graph_calls log10p1 use_sim m w)) d
        else (d, Some ENotDirectory)
    | SaveToMat => (if is_dir && can_write "model.mat" then store "model.mat" (CLabels (m_algo_labels m)) d else d, None)
    end.
  (** the model in memory after a method that returned: _serialisers.py:176-189 renames columns of its summaries *)
  Definition model_after (s : method) (m : model) : model := match s with SaveToCsv => after_save m | _ => m end.
  (** a program that calls the methods one after the other and stops at the first exception *)
  Fixpoint session (l : list method) (m : model) (d : disk) : disk * option serr :=
    match l with
    | [] => (d, None)
    | s :: t => match call s m d with
                | (d', None) => session t (model_after s m) d'
                | (d', Some e) => (d', Some e)
                end
    end.
End Output.
