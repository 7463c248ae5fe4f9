(** How the user's function is called: neps/state/_eval.py:137-164 evaluate_trial,
    neps/state/_eval.py:85-94 and Python's binding of keyword arguments.

    Values are of any type; [path] makes a [Path] of a location. *)
From Coq Require Import String.
From Verif Require Import Py Trial_model Eval_model Enc_model.
Local Open Scope nat_scope.
Local Open Scope string_scope.
Local Open Scope list_scope.

(** Kinds of parameters of a Python function ([inspect.Parameter.kind]), for
    [inspect.signature] (_eval.py:157) *)
Inductive kind : Type := PositionalOnly | PositionalOrKeyword | KeywordOnly | VarPositional | VarKeyword.

Section Call.
  Variable V : Type.
  Variables (path : string -> V) (none : V).

  (** A parameter, with its default value if it has one (_eval.py:157) *)
  Record param : Type := mkParam { p_name : string; p_kind : kind; p_default : option V }.
  Definition named (p : param) : bool :=
    match p_kind p with PositionalOnly | PositionalOrKeyword | KeywordOnly => true | _ => false end.
  Definition by_keyword (p : param) : bool :=
    match p_kind p with PositionalOrKeyword | KeywordOnly => true | _ => false end.
  Definition is_var_keyword (p : param) : bool := match p_kind p with VarKeyword => true | _ => false end.

  (** What the body of the function gets: a value for every named parameter, and the dictionary of
      [**kwargs] *)
  Record frame : Type := mkFrame { values : list (string * V); others : list (string * V) }.

  (** a call [fn( ** d)] with keywords only: every keyword goes to the parameter of this name, or to
      [**kwargs]; then defaults are filled in (used at _eval.py:94) *)
  Definition takes (sig : list param) (k : string) : bool := existsb (fun p => by_keyword p && String.eqb (p_name p) k) sig.
  Definition fill_in (d : list (string * V)) (p : param) : res (string * V) :=
    match (if by_keyword p then lookup (p_name p) d else None) with
    | Some v => Ok (p_name p, v)
    | None => match p_default p with Some v => Ok (p_name p, v) | None => Err TypeError end
    end.
  Definition bind_keywords (sig : list param) (d : list (string * V)) : res frame :=
    let extra := filter (fun kv => negb (takes sig (fst kv))) d in
    if negb (match extra with [] => true | _ => false end) && negb (existsb is_var_keyword sig) then Err TypeError
    else bind (mapM (fill_in d) (filter named sig)) (fun vs => Ok (mkFrame vs extra)).

  (** [fn( ** a, ** b)]: the same keyword twice is a TypeError (_eval.py:94) *)
  Definition call_twice (sig : list param) (a b : list (string * V)) : res frame :=
    if existsb (fun kv => has_key (fst kv) a) b then Err TypeError else bind_keywords sig (a ++ b).

  (** _eval.py:145-158: the directories that are asked for *)
  Definition injectable (sig : list param) (location : string) (previous : option string) : list (string * V) :=
    filter (fun kv => existsb (fun p => String.eqb (p_name p) (fst kv)) sig)
      [("pipeline_directory", path location); ("previous_pipeline_directory", match previous with Some l => path l | None => none end)].

  (** _eval.py:93-94: what the function does, or the TypeError of the call, which is caught like one of
      the function itself (_eval.py:96) *)
  Variable type_error : string.
  Definition outcome (sig : list param) (body : frame -> fn_outcome) (location : string) (previous : option string) (config : list (string * V)) : fn_outcome :=
    match call_twice sig (injectable sig location previous) config with
    | Ok f => body f
    | Err _ => FnRaises type_error
    end.
End Call.
Arguments mkParam {V}. Arguments p_name {V}. Arguments p_kind {V}. Arguments p_default {V}.
Arguments named {V}. Arguments by_keyword {V}. Arguments is_var_keyword {V}. Arguments takes {V}. Arguments fill_in {V}. Arguments bind_keywords {V}. Arguments call_twice {V}.
Arguments mkFrame {V}. Arguments values {V}. Arguments others {V}.
Arguments injectable {V}. Arguments outcome {V}.
