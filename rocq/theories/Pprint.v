(** Model of pprint_state (patching.c:24-66) and of its calls for the commands in a file of
    changes (patching.c:766-788 and 941-946). The text is what fprintf writes; [spc.evar_list] and
    [spc.svar_list] are parameters. Reading outside of [state] or from a NULL node is [Crash]. *)
From Coq Require Import List ZArith Bool String.
From Verif Require Import Base Ptree.
Import ListNotations.
Open Scope string_scope.
Open Scope Z_scope.

(** patching.c:36-43 (and 54-61): [k] rounds of the loop from index [i] on; the number is nnz *)
Fixpoint pprint_vars (node : ptree) (state : vec) (i k : nat) {struct k} : out (string * nat) :=
  match k with
  | O => Ok ("", O)
  | S k' =>
      match nth_error state i, node with
      | Some b, pnd _ nm _ l _ =>
          here <- (if b =? 0 then Ok ("", O)
                   else match nm with Some x => Ok (" " ++ x, 1%nat) | None => Crash end) ;;
          rest <- pprint_vars l state (S i) k' ;;
          Ok (fst here ++ fst rest, (snd here + snd rest)%nat)
      | _, _ => Crash
      end
  end.
Definition nil_if_none (x : string * nat) : string := match snd x with O => fst x ++ " (nil)" | _ => fst x end.
(** patching.c:28-66 pprint_state *)
Definition pprint_state (evar_list svar_list : ptree) (state : vec) (num_env num_sys : Z) : out string :=
  a <- pprint_vars evar_list state 0 (Z.to_nat num_env) ;;
  if num_sys =? -1 then Ok (nil_if_none a)
  else
    let num_env' := if num_env =? -1 then Z.of_nat (tree_size evar_list) else num_env in
    b <- pprint_vars svar_list state (Z.to_nat num_env') (Z.to_nat num_sys) ;;
    Ok (nil_if_none (fst a ++ fst b, (snd a + snd b)%nat)).

(** patching.c:782-786, the end of the line that the commands restrict and relax log with -v;
    [num_read] numbers have been read into [state] *)
Definition pprint_edge (evar_list svar_list : ptree) (state : vec) (num_env num_sys : nat) (num_read : Z) : out string :=
  a <- pprint_state evar_list svar_list state (Z.of_nat num_env) (Z.of_nat num_sys) ;;
  b <- pprint_state evar_list svar_list (skipn (num_env + num_sys) state) (Z.of_nat num_env) (num_read - (2 * Z.of_nat num_env + Z.of_nat num_sys)) ;;
  Ok (a ++ " to" ++ b).
(** patching.c:944, the same for blocksys; [state] has the num_sys numbers that have been read (909-940) *)
Definition pprint_block (evar_list svar_list : ptree) (state : vec) (num_sys : nat) : out string :=
  pprint_state evar_list svar_list state (-1) (Z.of_nat num_sys).
