(** Executions of a graph whose node flags were set by its owner before. *)
From Verif Require Import Model.Common Model.Sched Model.Exec.

(** The members of node_content are public and have default values (dag.hpp:72-80); exec
    takes the graph as it is (exec.cpp:295).  [f n]: the flags of node [n] at that time.
    [init] is the case where nobody has changed them. *)
Definition init_with (f : nid -> nstate) (clock : Z) : state := set_ns (init clock) f.
