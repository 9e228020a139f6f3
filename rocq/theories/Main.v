(** * make_pluralrules/src/main.rs

    The command line is parsed by clap (main.rs:9-17), which is not modelled:
    [options] is its result.  Files are a map from paths to contents; two paths
    that reach one file (links) are not represented. *)
From Verif Require Import Base MakeRules.
Open Scope N_scope.

Section Width.
Context {ptr : ptr_width}.

Definition path := bytes.
Definition files := path -> option bytes.

(** main.rs:12-15: the three options; clap refuses an empty list of inputs *)
Record options := mkOptions { o_inputs : list path; o_output : path; o_ugly : bool }.

(** What the operating system decides: whether a path can be created or
    truncated (main.rs:28), whether [write_all] fails and after how many bytes
    (main.rs:29), and what running rustfmt on a path does to the files if it can
    be started at all (main.rs:32-35; its exit status is not looked at). *)
Record system := mkSystem {
  can_create : path -> bool;
  write_stops : path -> bytes -> option nat;
  rustfmt : option (path -> files -> files) }.

Definition set_file (p : path) (s : bytes) (fs : files) : files :=
  fun q => if bytes_eqb q p then Some s else fs q.

(** main.rs:21-24 [fs::read_to_string(path).expect("file not found")] *)
Definition read_input (fs : files) (p : path) : res bytes :=
  match fs p with
  | Some s => if utf8_valid s then Ok s else Panic "file not found"
  | None => Panic "file not found"
  end.

(** main.rs:8-39: the files afterwards and how the process ends *)
Definition main (srt : sorter) (sys : system) (o : options) (fs : files) : files * res unit :=
  match (let? jsons := map_res (read_input fs) (o_inputs o) in generate_rs srt jsons) with   (* 21-25 *)
  | Panic w => (fs, Panic w)
  | Err e => (fs, Err e)
  | Ok code =>
      let out := o_output o in                                                               (* 27 *)
      if can_create sys out then                                                             (* 28 *)
        match write_stops sys out code with                                                  (* 29 *)
        | Some k => (set_file out (firstn k code) fs, Err "io error")
        | None =>
            let fs' := set_file out code fs in
            if o_ugly o then (fs', Ok tt)                                                    (* 31 *)
            else match rustfmt sys with
                 | Some f => (f out fs', Ok tt)
                 | None => (fs', Panic "Failed to format the output using `rustfmt`")
                 end
        end
      else (fs, Err "io error")
  end.
End Width.
