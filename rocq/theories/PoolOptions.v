(** * The settings an optimizer_pool is constructed with (optimizer_pool.cpp:22-34).

    INIT_MEMBER is a macro of xo (not in /repo); it is taken to be
    [var( pn.get< decltype( var ) >( key, default ) )] where the key is the name of the
    member without the trailing underscore.  The conversions of a text to size_t and bool
    (xo::from_str) are parameters.  Members are initialized in the order of their
    declaration in optimizer_pool.h:31-47, which is the order of the initializers. *)
From Verif Require Import Prelude Flt ShowNum PropNode Mes Optimizer Pool.

(** prop_node::get< T >( key, default ) *)
Definition pn_get_as {A} (rd : text -> option A) (key : string) (default : A) (pn : prop_node) : outcome A :=
  match pn_child key pn with
  | None => Ok default
  | Some c => match rd (chars (pn_str c)) with Some v => Ok v | None => Throw "Could not convert value" end
  end.
(** optimizer_pool.cpp:22-34 with [E] the base class's data *)
Definition pool_settings (rd_size : text -> option nat) (rd_bool : text -> option bool) (E : env) (sort : sorter) (pn : prop_node) : outcome pool_env :=
  let* window := pn_get_as rd_size "prediction_window" 100 pn in
  let* start := pn_get_as rd_size "prediction_start" window pn in
  let* look := pn_get_as rd_size "prediction_look_ahead" window pn in
  let* use := pn_get_as rd_bool "use_predicted_fitness_stop_condition" false pn in
  let* active := pn_get_as rd_size "active_optimizations" 6 pn in
  let* concurrent := pn_get_as rd_size "concurrent_optimizations" 3 pn in
  Ok {| pe_env := E; pe_window := window; pe_start := start; pe_look := look; pe_use_predicted := use; pe_active := active; pe_concurrent := concurrent; pe_sort := sort |}.
(** the constructor: the pool itself (optimizer_pool.cpp:30-33) *)
Definition construct_pool rd_size rd_bool E sort pn : outcome (pool_env * pool) :=
  let* PE := pool_settings rd_size rd_bool E sort pn in Ok (PE, new_pool PE).
