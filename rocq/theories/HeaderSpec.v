(** What the head of a raw file says. *)
From Coq Require Import String.
From Coq Require Import ZArith List Bool.
From Verif Require Import Base Cli CliSpec Header.
Import ListNotations.
Open Scope Z_scope.

(** A line of ASCII text with its ending; a text of such lines. *)
Definition line_ok (p : bytes * bytes) : Prop :=
  ~ In 10 (fst p) /\ ~ In 13 (fst p) /\ Forall (fun c => 0 <= c < 128) (fst p) /\ (snd p = [10] \/ snd p = [13; 10]).
Definition lines_text (ls : list (bytes * bytes)) : bytes := concat (map (fun p => fst p ++ snd p) ls).

Definition empty_line (l : bytes) : Prop := Forall (fun c => c = 32 \/ c = 9) l.
Definition note (l : bytes) : Prop := empty_line l \/ exists t, l = 35 :: t.

(** The line gives the serial number [sn], perhaps with a remark. *)
Definition serial_line (l sn : bytes) : Prop :=
  exists t, l = b "S," ++ sn ++ t /\ ~ In 44 sn /\ ~ In 35 sn /\ (t = [] \/ exists u, t = 35 :: u).
(** More than two cells before a remark. *)
Definition crowded (l : bytes) : Prop :=
  exists x y z, l = x ++ 44 :: y ++ 44 :: z /\ ~ In 35 x /\ ~ In 35 y.

(** One of the cells of the line is "C". *)
Definition mentions_C (l : bytes) : Prop :=
  exists p q, l = p ++ b "C" ++ q /\ (p = [] \/ exists p', p = p' ++ [44]) /\ (q = [] \/ exists q', q = 44 :: q').

(** The line gives six numbers. *)
Definition config_line (l : bytes) (c : config) : Prop :=
  exists s1 s2 s3 s4 s5 s6,
    l = b "C," ++ s1 ++ b "," ++ s2 ++ b "," ++ s3 ++ b "," ++ s4 ++ b "," ++ s5 ++ b "," ++ s6 /\
    (forall s, In s [s1; s2; s3; s4; s5; s6] -> ~ In 44 s) /\
    reads_as s1 (gps_mode c) /\ reads_as s2 (gps_cycle c) /\ reads_as s3 (gps_quota c) /\
    reads_as s4 (adc_range c) /\ reads_as s5 (led_shutoff c) /\ reads_as s6 (serial_output c).

(** Numbers and the letters C and S are not taken for missing. *)
Definition plain_na (na : bytes -> bool) : Prop :=
  na (b "C") = false /\ na (b "S") = false /\ forall s n, reads_as s n -> na s = false.
