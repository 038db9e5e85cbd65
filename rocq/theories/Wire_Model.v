(** Model of the messages of the websocket servers: yaml_parser/src/parse_history.cpp (decoding of the requests, encoding of the answers),
    executables/src/report_xdyn_exceptions_to_user.cpp, and the message handlers of executables/src/xdyn_for_cs.cpp and xdyn_for_me.cpp.
    A double [D] is printed by [fmt] (ostream, defaultfloat, 17 digits) and read by [num] (rapidjson). rapidjson (external) is replaced by the JSON reader
    of Observer_Spec, which keeps the text of numbers and strings (escape sequences in names are not decoded). *)
From Coq Require Import List Bool String Ascii.
From Verif Require Import Common Observer_Spec.
Import ListNotations.
Open Scope string_scope.

(** The quotation mark. *)
Definition q1 : string := String dquote "".
Definition newline : string := String nl "".

Section Wire.
  Context {D : Type} (fmt : D -> string) (isnan : D -> bool) (num : string -> option D) (zero : D).

  (** external_data_structures/inc/YamlState.hpp; the map of extra observations is given by its entries, sorted by key. *)
  Record wstate : Type := mkWS {
    w_t : D; w_x : D; w_y : D; w_z : D; w_u : D; w_v : D; w_w : D; w_p : D; w_q : D; w_r : D; w_qr : D; w_qi : D; w_qj : D; w_qk : D;
    w_phi : D; w_theta : D; w_psi : D; w_extra : list (string * D) }.

  (** parse_history.cpp:66-91. [i] is the number of entries already written, [n] the size of the map. *)
  Fixpoint encode_entries (n i : nat) (m : list (string * D)) : string :=
    match m with
    | [] => ""
    | (k, d) :: m' =>
        q1 ++ k ++ q1 ++ ": " ++ (if isnan d then "null" else fmt d) ++ (if Nat.ltb i (n - 1) then ", " else "") ++ encode_entries n (S i) m'
    end.
  Definition encode_map (m : list (string * D)) : string := "{" ++ encode_entries (List.length m) 0 m ++ "}".

  (** parse_history.cpp:102-121. *)
  Definition encode_state (s : wstate) : string :=
    "{" ++ q1 ++ "t" ++ q1 ++ ": " ++ fmt (w_t s) ++ ", "
        ++ q1 ++ "x" ++ q1 ++ ": " ++ fmt (w_x s) ++ ", "
        ++ q1 ++ "y" ++ q1 ++ ": " ++ fmt (w_y s) ++ ", "
        ++ q1 ++ "z" ++ q1 ++ ": " ++ fmt (w_z s) ++ ", "
        ++ q1 ++ "u" ++ q1 ++ ": " ++ fmt (w_u s) ++ ", "
        ++ q1 ++ "v" ++ q1 ++ ": " ++ fmt (w_v s) ++ ", "
        ++ q1 ++ "w" ++ q1 ++ ": " ++ fmt (w_w s) ++ ", "
        ++ q1 ++ "p" ++ q1 ++ ": " ++ fmt (w_p s) ++ ", "
        ++ q1 ++ "q" ++ q1 ++ ": " ++ fmt (w_q s) ++ ", "
        ++ q1 ++ "r" ++ q1 ++ ": " ++ fmt (w_r s) ++ ", "
        ++ q1 ++ "qr" ++ q1 ++ ": " ++ fmt (w_qr s) ++ ", "
        ++ q1 ++ "qi" ++ q1 ++ ": " ++ fmt (w_qi s) ++ ", "
        ++ q1 ++ "qj" ++ q1 ++ ": " ++ fmt (w_qj s) ++ ", "
        ++ q1 ++ "qk" ++ q1 ++ ": " ++ fmt (w_qk s) ++ ", "
        ++ q1 ++ "phi" ++ q1 ++ ": " ++ fmt (w_phi s) ++ ", "
        ++ q1 ++ "theta" ++ q1 ++ ": " ++ fmt (w_theta s) ++ ", "
        ++ q1 ++ "psi" ++ q1 ++ ": " ++ fmt (w_psi s) ++ ", "
        ++ q1 ++ "extra_observations" ++ q1 ++ ": " ++ encode_map (w_extra s)
        ++ "}".
  (** parse_history.cpp:100-124: the loop; [n] is states.size(), and the comma is written when i < states.size()-1 (size_t, never evaluated with n = 0). *)
  Fixpoint encode_from (n i : nat) (l : list wstate) : string :=
    match l with
    | [] => ""
    | s :: l' => encode_state s ++ (if Nat.ltb i (n - 1) then "," else "") ++ newline ++ encode_from n (S i) l'
    end.
  (** parse_history.cpp:93-129. *)
  Definition encode_states (l : list wstate) : string := "[" ++ encode_from (List.length l) 0 l ++ "]".

  (** ** Requests *)

  (** ssc::json::find_double (external): the first member of that name must be a number. *)
  Definition find_double (k : string) (v : json) : outcome D :=
    match jfield k v with
    | Some (JNum l) => match num l with Some d => Ok d | None => Throw end
    | _ => Throw
    end.
  (** ssc::json::find_optional_double (external). *)
  Definition find_optional_double (k : string) (v : json) (default : D) : outcome D :=
    match jfield k v with None => Ok default | Some _ => find_double k v end.

  Record request : Type := mkReq { rq_Dt : D; rq_states : list wstate; rq_commands : list (string * D) }.

  (** YamlState.hpp: the members that are not read are left at 0. parse_history.cpp:31-45. *)
  Definition decode_state (v : json) : outcome wstate :=
    do t <- find_double "t" v;
    do x <- find_double "x" v;
    do y <- find_double "y" v;
    do z <- find_double "z" v;
    do u <- find_double "u" v;
    do v' <- find_double "v" v;
    do w <- find_double "w" v;
    do p <- find_double "p" v;
    do q <- find_double "q" v;
    do r <- find_double "r" v;
    do qr <- find_double "qr" v;
    do qi <- find_double "qi" v;
    do qj <- find_double "qj" v;
    do qk <- find_double "qk" v;
    Ok (mkWS t x y z u v' w p q r qr qi qj qk zero zero zero []).
  Fixpoint decode_states (l : list json) : outcome (list wstate) :=
    match l with
    | [] => Ok []
    | v :: l' => do s <- decode_state v; do r <- decode_states l'; Ok (s :: r)
    end.
  (** [infos.commands[name] = find_double(name, commands)] for every member, in order. std::map is an association list; the last assignment wins. *)
  Fixpoint assign (m : list (string * D)) (k : string) (d : D) : list (string * D) :=
    match m with
    | [] => [(k, d)]
    | (k', d') :: m' => if String.eqb k k' then (k, d) :: m' else (k', d') :: assign m' k d
    end.
  Fixpoint decode_commands (all : json) (l : list (string * json)) (m : list (string * D)) : outcome (list (string * D)) :=
    match l with
    | [] => Ok m
    | (k, _) :: l' => do d <- find_double k all; decode_commands all l' (assign m k d)
    end.
  (** parse_history.cpp:9-64, once the text has been read by rapidjson. *)
  Definition decode_document (doc : json) : outcome request :=
    match doc with
    | JObj _ =>
        match jfield "states" doc with
        | Some (JArr states) =>
            do Dt <- find_optional_double "Dt" doc zero;
            do l <- decode_states states;
            match jfield "commands" doc with
            | None | Some (JWord "null") => Ok (mkReq Dt l [])
            | Some (JObj c) => do m <- decode_commands (JObj c) c []; Ok (mkReq Dt l m)
            | Some _ => Throw
            end
        | _ => Throw
        end
    | _ => Throw
    end.
  Definition decode_request (text : string) : outcome request :=
    match json_parse text with None => Throw | Some doc => decode_document doc end.

  (** ** Errors *)

  (** What [f()] may throw, in the order of the catch clauses of report_xdyn_exceptions_to_user.cpp:24-92. [Other] is anything that is not a
      std::exception: it goes through. *)
  Inductive exn : Type :=
  | ProgramOptions (what : string) | InvalidInput (message : string) | InternalError (what : string) | MeshError (message : string)
  | NumericalError (message : string) | WebSocketError (what : string) | ConnexionError (message : string) | JsonError (message : string)
  | SscError (message : string) | YamlError (line column : nat) (message : string) | StdError (what : string) | Other.
  (** [f()] returns or throws. *)
  Inductive result (A : Type) : Type := Returned (a : A) | Thrown (e : exn).
  Arguments Returned {A}. Arguments Thrown {A}.

  Context (dec : nat -> string).
  Definition tab : string := String (ascii_of_nat 9) "".
  (** report_xdyn_exceptions_to_user.cpp:18-92. What is given to [outputter], what is written to the standard error directly, and whether the exception
      goes on. [std::endl] is a newline. *)
  Record reported : Type := mkReported { told : list string; stderr : list string; escapes : bool }.
  Definition tell (s : string) : reported := mkReported [s] [] false.
  Definition report (e : exn) : reported :=
    match e with
    | ProgramOptions w => tell ("The command-line you supplied is not valid:" ++ newline ++ tab ++ w ++ newline ++
                                "Try running the program again with the -h flag to get a list of supported options." ++ newline)
    | InvalidInput m => tell ("The input you provided is invalid & we cannot simulate. " ++ m ++ newline)
    | InternalError w => tell ("The following error should never arise & is clearly a sign of a bug in the simulator. Please contact the support team."
                               ++ newline ++ w ++ newline)
    | MeshError m => mkReported [] ["A problem was detected with the STL file (mesh): " ++ m ++ newline] false
    | NumericalError m => tell ("The simulation has diverged and cannot continue: " ++ m ++ newline ++
          "Maybe you can use another solver? For example, if you used a Euler integration scheme, maybe the simulation can be run with" ++ newline ++
          "a Runge-Kutta 4 solver (--solver rk4) or a Runge-Kutta-Cash-Karp solver (--solver rkck)" ++ newline)
    | WebSocketError w => mkReported [] [] false   (* lines 53-59: the message is written in ss, which is never output *)
    | ConnexionError m => tell ("This simulation requires X-DYN to connect to a server but there was a problem with that connection: " ++ m ++ newline)
    | JsonError m => tell ("There is a syntax problem with the supplied JSON: " ++ m ++ newline)
    | SscError m => tell ("The following problem was detected:" ++ newline ++ m ++ newline)
    | YamlError l c m => tell ("There is a syntax problem with the YAML file line " ++ dec (l + 1) ++ ", column " ++ dec (c + 1) ++ ": " ++ m ++ "." ++ newline ++
          "Please note that as all YAML files supplied on the command-line are concatenated, the line number given here corresponds to the line number in the concatenated YAML." ++ newline)
    | StdError w => tell ("Something bad has happened: please send an email to the support team containing the following:" ++ newline ++
          "- Input YAML file(s) + STL (if needed)" ++ newline ++ "- Command-line arguments" ++ newline ++ "- The following error message: " ++ w ++ newline)
    | Other => mkReported [] [] true
    end.

  (** xdyn_for_cs.cpp:27-32 and xdyn_for_me.cpp:42-47: boost::replace_all(str, "\n", " "). *)
  Fixpoint replace_newlines (s : string) : string :=
    match s with "" => "" | String c s' => String (if Ascii.eqb c nl then " "%char else c) (replace_newlines s') end.
  (** The error outputters (xdyn_for_cs.cpp:46-47, xdyn_for_me.cpp:60-61): what is sent to the client. *)
  Definition error_answer (what : string) : string := replace_newlines ("{" ++ q1 ++ "error" ++ q1 ++ ": " ++ q1 ++ what ++ q1 ++ "}").

  (** A message is handled: the texts sent to the client. *)
  Definition answers {A} (encode : A -> string) (r : result A) : list string :=
    match r with
    | Returned a => [encode a]
    | Thrown e => map error_answer (told (report e))
    end.
  (** xdyn_for_cs.cpp:39-53. [r] is the result of play_one_step on the request. *)
  Definition cs_handler (r : result (list wstate)) : list string := answers encode_states r.

  (** xdyn_for_me.cpp:63-95: the thirteen first derivatives ([dx_dt[i]] is not checked). *)
  Definition me_fields : list string := ["dx_dt"; "dy_dt"; "dz_dt"; "du_dt"; "dv_dt"; "dw_dt"; "dp_dt"; "dq_dt"; "dr_dt"; "dqr_dt"; "dqi_dt"; "dqj_dt"; "dqk_dt"].
  Fixpoint me_members (names : list string) (dx : list D) : outcome string :=
    match names, dx with
    | [], _ => Ok ""
    | [k], d :: _ => Ok (q1 ++ k ++ q1 ++ ": " ++ fmt d)
    | k :: names', d :: dx' => do r <- me_members names' dx'; Ok (q1 ++ k ++ q1 ++ ": " ++ fmt d ++ "," ++ r)
    | _, [] => UB
    end.
  Definition encode_derivatives (dx : list D) : outcome string := do m <- me_members me_fields dx; Ok ("{" ++ m ++ "}").
End Wire.
Arguments Returned {A}. Arguments Thrown {A}.
