(** Model of gemlog/gem_cat.py [gem_cat] (16-105) on a folder of files: the listing (43), the serial number (48-51) and
    the loop of [GemCat].  The output folder is new and empty, so that the files in it are the written ones. *)
From Coq Require Import String Ascii.
From Coq Require Import ZArith QArith List Bool.
From Verif Require Import Base Scan Parser Process Names Select GemCat Header Card.
Import ListNotations.

(** Names matched by 'FILE[0-9][0-9][0-9][0-9].' + ext + '*' (43); [ext] has no special characters. *)
Definition cat_match (ext name : bytes) : bool :=
  starts_with (b "FILE") name && Nat.eqb (length (firstn 4 (skipn 4 name))) 4 && forallb is_digit (firstn 4 (skipn 4 name)) &&
  starts_with (b "." ++ ext) (skipn 8 name).
Definition gem_files (ext : bytes) (c : card) : list (bytes * bytes) :=
  sort_by (fun p q => le_bytes (fst p) (fst q)) (filter (fun p => cat_match ext (fst p)) c).

(** A format version (118) as a Python string. *)
Fixpoint text_of (s : bytes) : string :=
  match s with [] => EmptyString | c :: r => String (ascii_of_N (Z.to_N c)) (text_of r) end.

Section Merge.
  Variable sc : scanner.
  Variable buf0 : bytes.
  Variable ear : bool.
  Variable oddS : list bytes -> option (option bytes).
  Variable oddV : list bytes -> option bytes.
  (** The two readers by pandas (784-841 of core.py), given the bytes. *)
  Variables pandas pandas08 : bytes -> bool -> res (list drow).

  (** 48-51, 80: a missing value is written nan. *)
  Definition cat_sn (ext : bytes) (c : card) : option bytes :=
    match gem_files ext c with
    | [] => None
    | (_, bs) :: _ => match read_SN na_words oddS bs with Some (Some s) => Some s | Some None => Some (b "nan") | None => None end
    end.

  Definition cat_version (bs : bytes) : option string := option_map text_of (read_version na_words oddV bs).

  (** [gem_cat(input_dir, output_dir, ext, cat_all)]: the output folder afterwards, and whether it returned. *)
  Definition merge_card (ext : bytes) (cat_all : bool) (c : card) : card * bool :=
    gem_cat cat_version (last_adc sc buf0 ear pandas pandas08) (cat_sn ext c) cat_all (map snd (gem_files ext c)).
End Merge.
