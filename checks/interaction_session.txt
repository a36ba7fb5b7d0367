(** Not part of the build (takes some minutes): the example session of doc/interaction.md
    in the model. To run it: copy it to a .v file and, from /verif/rocq, coqc -Q theories Verif FILE.v *)
From Coq Require Import List ZArith Bool Arith String.
From Verif Require Import Base Game Levels Bdd Support Strs Ptree Form Solve FSpec SolveProofs SynthSpec
  Automaton Synth AutIO ReadState ReadSpec EnumProofs Interactive InteractSpec.
Import ListNotations. Open Scope string_scope. Open Scope Z_scope.
Definition ex_partwin : fspec := {|
  fs_evars := [("x", -1); ("ze", -1)]; fs_svars := [("y", -1); ("zs", -1)];
  fs_einit := Some (FAnd (FVar "x") (FNot (FVar "ze"))); fs_sinit := Some (FVar "y");
  fs_etrans := FAnd (FImp (FVar "zs") (FNext "ze"))
                    (FImp (FAnd (FNot (FVar "ze")) (FNot (FVar "zs"))) (FNot (FNext "ze")));
  fs_strans := FTrue;
  fs_egoals := [FVar "x"];
  fs_sgoals := [FAnd (FVar "y") (FVar "x"); FNot (FVar "y"); FNot (FVar "ze")]
|}.
Time Eval vm_compute in asked ex_partwin robdd_oracle 70 [Winning [1;0;1;1]; Winning [1;0;1;0]; Winning [0;0;0;0]; SysNextA [0;0;0;0] [0;0]; SysNext [0;0;0;0] [0;0] 2; GetIndex [1;0;1;1] 0; GetIndex [1;0;1;0] 0; EnvNext [1;0;1;0]; RestrictEnv [1;0;1;0] [0;0]; EnvNext [1;0;1;0]; BlockEnv [1;0]; EnvNext [1;0;1;0] ; RefreshWinning; Winning [1;0;1;1]; Clear; RefreshLevels; GetIndex [1;0;1;0] 0].
Time Eval vm_compute in levelset_interactive (spec_of ex_partwin) robdd_oracle 70 (typed [Winning [1;0;1;1]; Winning [1;0;1;0]; Winning [0;0;0;0]; SysNextA [0;0;0;0] [0;0]; SysNext [0;0;0;0] [0;0] 2]).
Time Eval vm_compute in levelset_interactive (spec_of ex_partwin) robdd_oracle 70 
"var
numgoals
printgoal 0
printgoal 1
printgoal 2
printgoal 3
winning 1 0 1 1
winning 1 0 1 0
winning 0 0 0 0
sysnexta 0 0 0 0  0 0
sysnext 0 0 0 0  0 0  2
".
