(** What is drawn of the amplitudes of a database: gemlog/gemlog_aux.py [plot_amp] (8-17).

    Simplifications: a drawn line of dots is the list of its points; the legend gives the lines, in the order drawn, the
    names it is given; what is printed is the list of names and quantiles; colours and showing the figure are left out. *)
From Coq Require Import ZArith QArith List Bool.
From Verif Require Import Base Names Select Stations Database.
Import ListNotations.
Open Scope Z_scope.

Section Amp.
  Context {V : Type}.
  (** [np.log10] (14) and [np.quantile(_, 0.25)] (15). *)
  Variable log10 : Q -> V.
  Variable quartile : list Q -> Q.
  (** [DB.station.unique()] (9, 11). *)
  Definition stations_of (DB : list row) : list bytes := unique eqb_bytes (map r_station DB).
  (** 12-13: the rows of a station, in order. *)
  Definition rows_at (DB : list row) (sta : bytes) : list row := filter (fun r => eqb_bytes (r_station r) sta) DB.
  (** 14: its points. *)
  Definition amp_line (DB : list row) (sta : bytes) : list (Z * V) := map (fun r => (r_t1 r, log10 (r_amp r))) (rows_at DB sta).
  (** 11, 15: what is printed. *)
  Definition amp_printed (DB : list row) : list (bytes * Q) :=
    map (fun sta => (sta, quartile (map r_amp (rows_at DB sta)))) (stations_of DB).
  (** 9-10, 16: the lines with the names of the legend: those of the stations, sorted. *)
  Definition amp_legend (DB : list row) : list (bytes * list (Z * V)) :=
    combine (sort_by le_bytes (stations_of DB)) (map (amp_line DB) (stations_of DB)).
End Amp.
