(** Model of the interpreter: src/lang/interpreter.hpp, src/lang/statements/code_block_statement.hpp,
    src/main.cpp. *)
From Coq Require Import Ascii String List Bool Arith NArith ZArith.
From Verif Require Import Chars Outcome Delimited_Model Lexer_Model Parser_Model.
Import ListNotations.

(** What running something does: return a result (exit flag, success flag), throw, or be undefined. *)
Inductive event := Return (exit success : bool) | Raise | Undefined.

Section Interpreter.
(** The state a statement may read and change (files, execution context, console) and the effect of each statement;
    what create, execute, print and help do is left open here, except that their results never ask to exit
    (src/lang/statements: every [ExecutionResult] but [ExitStatement]'s has [exit] false). *)
Context {W : Type} (run : statement -> W -> event * W) (in_range : str -> bool).

(** src/lang/statements/exit_statement.hpp:15-18. *)
Definition exec (st : statement) (w : W) : event * W :=
  match st with
  | SExit => (Return true true, w)
  | _ => let (e, w') := run st w in
         (match e with Return _ s => Return false s | _ => e end, w')
  end.

(** src/lang/statements/code_block_statement.hpp:20-32. *)
Fixpoint block_from (last : event) (children : list statement) (w : W) : event * W :=
  match children with
  | [] => (last, w)
  | st :: r => match exec st w with
               | (Return e true, w') => block_from (Return e true) r w'
               | stop => stop
               end
  end.
Definition execute_block (children : list statement) (w : W) : event * W := block_from (Return false true) children w.

(** src/lang/interpreter.hpp:24-46: the result is the exit flag. *)
Definition interpretCommands (text : str) (w : W) : outcome bool * W :=
  match parse in_range text with
  | inr _ => (Ok false, w)
  | inl (PErr _) => (Ok false, w)
  | inl (PVal sts _) => match execute_block sts w with
                        | (Return e _, w') => (Ok e, w')
                        | (Raise, w') => (Throw, w')
                        | (Undefined, w') => (UB, w')
                        end
  | inl (PRun _ _) | inl (PLog _) => (Throw, w)
  | inl PUB | inl PFuel => (UB, w)
  end.

(** src/main.cpp:21-27 and interpreter.hpp:48-67: the script files given on the command line, as their texts; a file
    that cannot be read has the empty text. *)
Fixpoint run_files (texts : list str) (w : W) : outcome unit * W :=
  match texts with
  | [] => (Ok tt, w)
  | t :: r => match interpretCommands t w with
              | (Ok true, w') => (Ok tt, w')
              | (Ok false, w') => run_files r w'
              | (Throw, w') => (Throw, w')
              | (UB, w') => (UB, w')
              end
  end.

(** src/lang/interpreter.hpp:69-95: the lines typed; [back()] of an empty line is undefined. *)
Fixpoint interactive (buffer : str) (lines : list str) (w : W) : outcome unit * W :=
  match lines with
  | [] => (Ok tt, w)
  | l :: r => match rev (trimEnd l) with
              | [] => (UB, w)
              | c :: p => if ceq c BSL then interactive (buffer ++ rev p ++ [NL]) r w
                          else match interpretCommands (buffer ++ rev (c :: p)) w with
                               | (Ok true, w') => (Ok tt, w')
                               | (Ok false, w') => interactive [] r w'
                               | (Throw, w') => (Throw, w')
                               | (UB, w') => (UB, w')
                               end
              end
  end.
End Interpreter.
