(** The instrument response: gemlog/gem_network.py [get_gem_response] (71-135) and [deconvolve_gem_response] (18-53).

    A response file is what obspy reads from it: the stages and the overall sensitivity.  Dividing by the response in the
    frequency domain (obspy's [remove_response]) is a parameter.  The value of the sensitivity contains a square root, so its
    square is modelled; 0.05/0.039 is exact.  Not modelled: stages without a gain. *)
From Coq Require Import String.
From Coq Require Import ZArith QArith List Bool.
From Verif Require Import Base Names Stations.
Import ListNotations.
Open Scope Z_scope.

(** A stage: its gain, its input units and what else there is (poles, zeros, coefficients). *)
Record stage := mkstage { sg_gain : Q; sg_units : bytes; sg_rest : bytes }.
(** A response: stages, input units and square of the value of the overall sensitivity. *)
Record response := mkresponse { rs_stages : list stage; rs_units : bytes; rs_value2 : Q }.

Inductive exn := ValueError | IndexError | TypeError | ReadError.

(** [os.path.join(response_path, kind, name)]: a name that begins with a slash replaces what is before it. *)
Definition path_join (dir name : bytes) : bytes :=
  match name with 47 :: _ => name | _ => dir ++ [47] ++ name end.

(** Complex numbers, for 131. *)
Definition cx := (Q * Q)%type.
Definition cx_sub (x y : cx) : cx := (fst x - fst y, snd x - snd y)%Q.
Definition cx_norm2 (x : cx) : Q := (fst x * fst x + snd x * snd x)%Q.
Definition cx_inv (x : cx) : cx := (fst x / cx_norm2 x, - snd x / cx_norm2 x)%Q.
(** The square of [np.abs(1-1/(1+0.05j/0.039))] (131). *)
Definition filter_gain2 : Q := cx_norm2 (cx_sub (1, 0) (cx_inv (1, (5 # 100) / (39 # 1000))))%Q.

Definition default_sensor : bytes := b "RESP.XX.IS025..BDF.GEMV1.26.0_0022".
Definition default_logger : bytes := b "RESP.XX.GM002..HHZ.GEMINFRAV1.0.100".

Section Get.
  (** [_read_response] (68-69): the file system; [None]: it cannot be read. *)
  Variable disk : bytes -> option response.
  (** The folder of the package's response files (107). *)
  Variable folder : bytes.

  (** 112-119.  [lower] is of ASCII letters; no other character becomes a letter of "high" or "low". *)
  Definition choose_logger (gain logger : bytes) : exn + bytes :=
    match logger with
    | [] => if eqb_bytes (lower gain) (b "high") then inr (b "RESP.XX.GM002..HHZ.GEMINFRAV1.0.100")
            else if eqb_bytes (lower gain) (b "low") then inr (b "RESP.XX.GM002..HHZ.GEMINFRAV1.0.100")
            else inl ValueError
    | _ => inr logger
    end.
  (** 122-132: the sensor's first stage in place of the logger's. *)
  Definition merge (sensor logger : response) : exn + response :=
    match rs_stages logger, rs_stages sensor with
    | _ :: rest, s0 :: _ =>
        match s0 :: rest with
        | g0 :: _ :: g2 :: _ => inr (mkresponse (s0 :: rest) (sg_units s0) ((sg_gain g0 * sg_gain g2) * (sg_gain g0 * sg_gain g2) * filter_gain2))
        | _ => inl IndexError
        end
    | _, _ => inl IndexError
    end.
  (** 71-133. *)
  Definition get_gem_response (gain sensor_file logger_file : bytes) : exn + response :=
    let sensor_file := match sensor_file with [] => default_sensor | _ => sensor_file end in
    match disk (path_join (path_join folder (b "sensor")) sensor_file) with
    | None => inl ReadError
    | Some sensor =>
        match choose_logger gain logger_file with
        | inl e => inl e
        | inr logger_file =>
            match disk (path_join (path_join folder (b "datalogger")) logger_file) with
            | None => inl ReadError
            | Some logger => merge sensor logger
            end
        end
    end.

  (** A trace: its name, the response attached to it and its samples. *)
  Record tr := mktr { tr_id : bytes; tr_response : option response; tr_samples : list Q }.
  Inductive data := Stream (l : list tr) | Trace (t : tr) | Other.
  (** obspy's [remove_response] for one trace; [None]: an exception. *)
  Variable remove : response -> list Q -> option (list Q).

  (** 43-45: the traces in turn; what is attached stays attached if a later one fails. *)
  Fixpoint attach (gain s l : bytes) (st : list tr) : list tr * option exn :=
    match st with
    | [] => ([], None)
    | t :: r =>
        match get_gem_response gain s l with
        | inl e => (t :: r, Some e)
        | inr rs => let (r', e) := attach gain s l r in (mktr (tr_id t) (Some rs) (tr_samples t) :: r', e)
        end
    end.
  (** [data.remove_response()] (52): in place, the traces in turn. *)
  Fixpoint remove_all (st : list tr) : list tr * option exn :=
    match st with
    | [] => ([], None)
    | t :: r =>
        match tr_response t with
        | None => (t :: r, Some ValueError)
        | Some rs =>
            match remove rs (tr_samples t) with
            | None => (t :: r, Some ValueError)
            | Some d => let (r', e) := remove_all r in (mktr (tr_id t) (tr_response t) d :: r', e)
            end
        end
    end.
  (** 18-53.  The data afterwards (they are changed in place, and returned if there is no exception) and the exception. *)
  Definition deconvolve_gem_response (x : data) (gain s l : bytes) : data * option exn :=
    match x with
    | Stream st =>
        match attach gain s l st with
        | (st, Some e) => (Stream st, Some e)
        | (st, None) => let (st, e) := remove_all st in (Stream st, e)
        end
    | Trace t =>
        match get_gem_response gain s l with
        | inl e => (Trace t, Some e)
        | inr rs =>
            match remove_all [mktr (tr_id t) (Some rs) (tr_samples t)] with
            | (t :: _, e) => (Trace t, e)
            | ([], e) => (Trace t, e)
            end
        end
    | Other => (Other, Some TypeError)
    end.
End Get.

(** What the package ships: gemlog/data/response, gains and input units of the stages (blocks 53/54 and 58) of the two
    version 1 loggers and of the standard sensor; the third field names the kind of stage. *)
Definition shipped_logger (counts_per_volt : Q) : response :=
  mkresponse [mkstage 1 (b "M/S") (b "poles"); mkstage 1 (b "V") (b "gain"); mkstage counts_per_volt (b "V") (b "digitizer"); mkstage 1 (b "COUNTS") (b "FIR")]
    (b "M/S") (counts_per_volt * counts_per_volt).
Definition shipped_sensor : response :=
  mkresponse [mkstage (2231378 # 1000000000) (b "PA") (b "poles"); mkstage 1 (b "V") (b "coefficients")] (b "PA") ((2231378 # 1000000000) * (2231378 # 1000000000)).
Definition shipped (folder : bytes) (p : bytes) : option response :=
  if eqb_bytes p (folder ++ b "/sensor/RESP.XX.IS025..BDF.GEMV1.26.0_0022") then Some shipped_sensor
  else if eqb_bytes p (folder ++ b "/datalogger/RESP.XX.GM002..HHZ.GEMINFRAV1.0.100") then Some (shipped_logger 128000)
  else if eqb_bytes p (folder ++ b "/datalogger/RESP.XX.GM001..HHZ.GEMINFRAV1.1.100") then Some (shipped_logger 64000)
  else None.
