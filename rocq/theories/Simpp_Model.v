(** The `simpp` program: simpp/src/main.rs.

    Not modelled: clap (the columns and the optional entity are given), the text of the panic
    messages (they go to the standard error), and the write of the line itself. *)
From Coq Require Import String.
From Verif Require Import Base Cpp_Lex_Model Cpp_Ast_Model Cpp_Parse_Model.
Local Open Scope list_scope.

(** The standard input: a terminal, or something whose contents can be read until its end as
    UTF-8 ([None] if that fails). *)
Inductive input := Terminal | Piped (contents : option str).

(** simpp/src/main.rs:10-18 *)
Record args := mk_args { max_cols : N; entity_arg : option str }.

(** What the program did: did it read the standard input, what did it write on the standard
    output, and did it get to its end or panic. *)
Record run_result := mk_run { reads_stdin : bool; stdout : str; outcome_of : outcome unit }.

Section Simpp.
  Variable verbatim : chr -> bool.       (* see Cpp_Ast_Model *)
  Variable width : str -> N.

  (** simpp/src/main.rs:40-50: `expect` of the parse, then `println!` *)
  Definition simplify (reads : bool) (cols : N) (text : str) : run_result :=
    match parse_entity text with
    | EOk e =>
        match bounded_display verbatim width e cols with
        | Ret line => mk_run reads (line ++ [10%N]) (Ret tt)
        | Panic => mk_run reads [] Panic
        end
    | EErr | EPanic _ | EFuel => mk_run reads [] Panic
    end.

  (** simpp/src/main.rs:21-51 *)
  Definition simpp (a : args) (stdin : input) : run_result :=
    match entity_arg a with
    | Some text => simplify false (max_cols a) text
    | None =>
        match stdin with
        | Terminal => mk_run false [] Panic                   (* :37 "Please provide ..." *)
        | Piped None => mk_run true [] Panic                  (* :33 "Failed to read ..." *)
        | Piped (Some text) => simplify true (max_cols a) text
        end
    end.
End Simpp.
