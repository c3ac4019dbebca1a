(** Model of the main functions of the three examples, release build: the file is read, the solver runs, a line is printed.
    Not modelled: the parsing of the command line by structopt (the options are given) and the name of the file without its
    directory and extension (the name is given). Whatever goes wrong in reading the file panics, because of [unwrap]. *)
From Verif Require Export ReportSpec Tsptw TsptwFile TsptwCases Psp PspFile PspProofs Srflp SrflpFile SrflpProofs.
Open Scope Z_scope.

(** src/xputils.rs:22-39 [Args::Solve]: the options that matter here. *)
Record options := mk_options { op_width : option nat; op_threads : option nat; op_solver : solver_type; op_cutset : cutset_type }.
(** When no option is given: lines 27-28, 31-36. src/xputils.rs:27-28, 31-36. *)
Definition default_options : options := mk_options None None ParallelS LastExactLayer.
(** [width.unwrap_or(1)]: examples/tsptw/main.rs:54, examples/psp/main.rs:52, examples/srflp/main.rs:54. *)
Definition op_factor (o : options) : nat := match op_width o with Some w => w | None => 1%nat end.

(** examples/tsptw/main.rs:34-61 [run_resolution_xp]: what it may end with. *)
Inductive tsptw_program (lines : list string) (name : string) (cpus : nat) (o : options) : option (report * Z) -> Prop :=
| tsptw_unread : tw_read false lines = None -> tsptw_program lines name cpus o None
| tsptw_solves I out : tw_read false lines = Some I ->
    solve_timeout_ends tw_eqb (tw_cfg false I (op_factor o) (op_cutset o)) false name (op_threads o) cpus (op_solver o) out ->
    tsptw_program lines name cpus o out.

(** examples/psp/main.rs:28-54 [run_resolution_xp]. [sort] is what the unstable sort of the edges answers. *)
Inductive psp_program (sort : list (Z * nat * nat) -> list (Z * nat * nat)) (lines : list string) (name : string) (cpus : nat) (o : options) : option (report * Z) -> Prop :=
| psp_unread : (forall x, psp_read false sort lines <> Fine x) -> psp_program sort lines name cpus o None
| psp_solves J orders opt out : psp_read false sort lines = Fine (J, orders, opt) ->
    solve_timeout_ends psp_eqb (psp_cfg J (op_factor o) (op_cutset o)) false name (op_threads o) cpus (op_solver o) out ->
    psp_program sort lines name cpus o out.

(** examples/srflp/main.rs:34-63 [run_resolution_xp]. *)
Inductive srflp_program (lines : list string) (name : string) (cpus : nat) (o : options) : option (report * Z) -> Prop :=
| srflp_unread : sr_read false lines = None -> srflp_program lines name cpus o None
| srflp_solves I out : sr_read false lines = Some I ->
    solve_timeout_ends sr_eqb (sr_cfg false I (op_factor o) (op_cutset o)) false name (op_threads o) cpus (op_solver o) out ->
    srflp_program lines name cpus o out.
