(** Channels used by the cross-correlation: gemlog/xcorr.py [_check_input_IDs] (432-468), and the splitting of
    the options of [xcorr_all_terminal] (41-48).

    [search] is Python's [re.search]: [None] is the exception for an invalid pattern. *)
From Coq Require Import String.
From Coq Require Import ZArith List Bool.
From Verif Require Import Base Stations Select.
Import ListNotations.
Open Scope Z_scope.

(** [\w], for ASCII text. *)
Definition is_word (c : Z) : bool :=
  (48 <=? c) && (c <=? 57) || (65 <=? c) && (c <=? 90) || (c =? 95) || (97 <=? c) && (c <=? 122).

(** A run of [lo] to [hi] word characters followed by a dot; a dot is no word character, so there is no choice. *)
Fixpoint code (hi lo : nat) (s : bytes) {struct s} : option bytes :=
  match s with
  | [] => None
  | c :: r =>
      if c =? 46 then match lo with O => Some r | _ => None end
      else match hi with O => None | S h => if is_word c then code h (pred lo) r else None end
  end.

(** 448: [re.match(r'\w{0,2}\.\w{1,5}\.\w{0,2}\.\w{3}', ID)], which does not look at the end of the text. *)
Definition conventional (s : bytes) : bool :=
  match code 2 0 s with
  | None => false
  | Some s =>
      match code 5 1 s with
      | None => false
      | Some s =>
          match code 2 0 s with
          | Some (x :: y :: z :: _) => is_word x && is_word y && is_word z
          | _ => false
          end
      end
  end.

Section Ids.
  Variable search : bytes -> bytes -> option bool.

  (** 454-456. *)
  Fixpoint matches (p : bytes) (found : list bytes) : option (list bytes) :=
    match found with
    | [] => Some []
    | f :: r =>
        match search p f, matches p r with
        | Some m, Some l => Some (if m then f :: l else l)
        | _, _ => None
        end
    end.
  (** 443-457. *)
  Fixpoint resolve (found ids : list bytes) : option (list bytes) :=
    match ids with
    | [] => Some []
    | i :: r =>
        match (if conventional i then Some [i] else matches i found), resolve found r with
        | Some l, Some k => Some (l ++ k)
        | _, _ => None
        end
    end.
  (** 463-465. *)
  Fixpoint any_search (ps : list bytes) (x : bytes) : option bool :=
    match ps with
    | [] => Some false
    | p :: r => match search p x, any_search r x with Some m, Some n => Some (m || n) | _, _ => None end
    end.
  (** 459-468. *)
  Fixpoint remaining (ps : list bytes) (l : list bytes) : option (list bytes) :=
    match l with
    | [] => Some []
    | x :: r =>
        match any_search ps x, remaining ps r with
        | Some m, Some k => Some (if m then k else x :: k)
        | _, _ => None
        end
    end.

  (** 432-469; [rows]: the column ID of the table of traces. *)
  Definition check_input_ids (rows : list bytes) (ids excl : option (list bytes)) : option (list bytes) :=
    let found := unique eqb_bytes rows in
    match (match ids with
           | None | Some [] => Some found
           | Some l => option_map (unique eqb_bytes) (resolve found l)
           end) with
    | None => None
    | Some out => match excl with None => Some out | Some ps => remaining ps out end
    end.

  (** 211. *)
  Definition channels (rows : list bytes) (ids excl : option (list bytes)) : option (list bytes) :=
    option_map (sort_by le_bytes) (check_input_ids rows ids excl).
End Ids.

(** 41-48: an option of the command line; [None]: not given. *)
Definition listed (o : option bytes) : option (list bytes) := option_map (split_on 44) o.
