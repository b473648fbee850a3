(** Model of gemlog/core.py [convert] as a whole (31-335): from the files in the folder, as bytes, to the output files.
    The parts are those of [Header] (what is read of the head of each file), [Select] (which files are chosen), [Block]
    (reading a block of files) and [Convert] (the blocks and the output). *)
From Coq Require Import String.
From Coq Require Import ZArith QArith List Bool.
From Verif Require Import Base Scan Parser Process ReadSeveral Drift Interp Stream Convert Select Header Block.
Import ListNotations.

(** The folder [rawpath]: its files, with their names and their bytes. *)
Definition card := list (bytes * bytes).

Section Card.
  Variable sc : scanner.
  Variable buf0 : bytes.
  Variable ear : bool.
  Variable fit3 : list point -> option cubic.
  Variable fit1 : list point -> option linear.
  Variable spline : list (Q * option Q) -> option (Q -> Q).
  Variable now : Q.
  (** pandas on heads that [Header] does not describe. *)
  Variable oddS : list bytes -> option (option bytes).
  Variable oddV : list bytes -> option bytes.
  Variable oddC : list bytes -> option config.
  (** What the two readers by pandas make of the file of this name (784-841). *)
  Variables reader9 reader8 : bytes -> bool -> res (list drow).

  (** What [glob] (131, 152-153, 624), [_read_SN] (161, 633), [os.stat] (646) and [_read_format_version] (503) say of
      the files. *)
  Definition entries (c : card) : list entry := map (fun p => entry_of na_words oddS oddV (fst p) (snd p)) c.

  (** The bytes of the file named [name] (opening it, 788, 800, 815). *)
  Fixpoint bytes_of (c : card) (name : bytes) : option bytes :=
    match c with [] => None | (n, bs) :: r => if eqb_bytes n name then Some bs else bytes_of r name end.

  (** What [_read_single] (784-841) reads, and the gain in [_read_config] (504, 601-618). *)
  Definition content_of (c : card) (e : entry) : raw_file := mkraw (bytes_of c (e_name e)) (reader9 (e_name e)) (reader8 (e_name e)).
  Definition range_of (c : card) (e : entry) : Z :=
    match bytes_of c (e_name e) with Some bs => adc_range (read_config na_words oddC bs) | None => 0%Z end.

  (** [convert] (128-335) of a folder that exists: the choice of file numbers (128-185), then block by block. *)
  Definition convert_card (c : card) (sn : bytes) (nums : option (list Z)) (blockdays flen : Q) (t1 : option Q) (t2 : Q) (fuel : nat) :=
    match select (Some (entries c)) sn nums with
    | inl r => inl r
    | inr ns =>
        inr (convert _ _ _ position_time
               (fun bl => block_outcome (read_files sc buf0 ear fit3 fit1 spline (content_of c) (range_of c) now true (entries c) sn bl))
               ns blockdays flen t1 t2 fuel)
    end.
End Card.
