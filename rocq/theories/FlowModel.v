(** From kernel code to the input of the layer conditions: cacheprediction.py:293-386 ([build_symbolic_LCs]) takes the loops from [get_loop_stack]
    (kernel.py:397-406), and [variables], [sources] and [destinations] as they were recorded for the code (CodeModel). *)
From Coq Require Import String.
From Verif Require Import PyBase AstModel CodeModel FrontModel.
Local Open Scope list_scope.

(** cacheprediction.py:296-297 (index and increment), 305, 365-371 (dimensions of the variables) *)
Definition front_of (k : kernel) : front :=
  mkFront (map (fun en => match en with (x, _, _, step) => (x, step) end) (stack (kernel_nest k)))
          (map (fun v => (fst v, snd (snd v))) (CodeModel.variables (kernel_variables k)))
          (AstModel.sources (accesses (kernel_nest k))) (AstModel.destinations (accesses (kernel_nest k))).
