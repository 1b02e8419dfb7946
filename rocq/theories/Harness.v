(** The experiment runner (experimenter/src/main.rs, lib.rs): measuring, patching and
    resuming, averages, the files results are saved to, generated filters. *)
From Coq Require Import String.
From Verif Require Import Base Xor F64 Format Query.
Local Open Scope N_scope.

(** ** JSON *)

(** What a serde_json document looks like; numbers and strings are not looked into.
    [JNull] also stands for a file that is not a document, as a crash may leave one. *)
Inductive json := JNull | JNumber (bits : N) | JString (s : string) | JArray (items : list json) | JObject (members : list (string * json)).

(** ** Results *)

(** Calls of the commands (main.rs:1494-2076); all but the first read the file the
    last compression of the data set left. *)
Inductive call := Compress (dataset : string) (c : config) | Filter (dataset filter : string)
| FilterMaterialize (dataset filter : string) | Materialize (dataset : string) | Max (dataset : string) | Sum (dataset : string).
(** lib.rs:177-190 [OutputWrapper]: which call of the program measured it, what was
    called ([command_specific], [input_filename], [config_path]), the configuration in
    the footer of the file it was measured on, the elapsed time and, for compressions,
    the size and the ratio.  The other members are not modelled. *)
Record result := mkResult { r_number : nat; r_call : call; r_config : config; r_elapsed : N; r_uncompressed : N; r_ratio : f64 }.
(** lib.rs:192-196 [FilterFamilyOutput], lib.rs:198-205 [AllOutputInner]; the
    [HashMap] of filters as an association list. *)
Record inner := mkInner { i_compress : list result; i_filters : list (string * (list result * list result));
  i_materialize : list result; i_max : list result; i_sum : list result }.
Definition empty_inner : inner := mkInner [] [] [] [] [].
(** lib.rs:207-213 [clear]. *)
Definition clear (i : inner) : inner := mkInner [] [] [] (i_max i) (i_sum i).
(** One data set: scheme -> results (the keys are the [Debug] names of the schemes);
    lib.rs:215-217 [AllOutput]: data set -> scheme -> results. *)
Definition outputs := list (scheme * inner).
Definition all_output := list (string * outputs).

(** [HashMap] as a list with at most one entry for a key. *)
Section Map.
  Context {K V : Type} (eqb : K -> K -> bool).
  Fixpoint get (k : K) (m : list (K * V)) : option V :=
    match m with [] => None | (k', v) :: rest => if eqb k k' then Some v else get k rest end.
  Fixpoint put (k : K) (v : V) (m : list (K * V)) : list (K * V) :=
    match m with [] => [(k, v)] | (k', v') :: rest => if eqb k k' then (k, v) :: rest else (k', v') :: put k v rest end.
End Map.
Definition scheme_eqb (a b : scheme) : bool := scheme_code a =? scheme_code b.

(** ** Saved results *)
Section Json.
  (** The members of a serialised [OutputWrapper], and reading one back. *)
  Variable members : result -> list (string * json).
  Variable read_result : json -> option result.

  Definition json_of_results (rs : list result) : json := JArray (map (fun r => JObject (members r)) rs).
  Definition json_of_family (f : list result * list result) : json :=
    JObject [("filter"%string, json_of_results (fst f)); ("filter_materialize"%string, json_of_results (snd f))].
  (** The derived [Serialize] of [AllOutputInner]. *)
  Definition json_of_inner (i : inner) : json :=
    JObject [("compress"%string, json_of_results (i_compress i));
             ("filters"%string, JObject (map (fun kf => (fst kf, json_of_family (snd kf))) (i_filters i)));
             ("materialize"%string, json_of_results (i_materialize i));
             ("max"%string, json_of_results (i_max i)); ("sum"%string, json_of_results (i_sum i))].

  Fixpoint all_some {A B} (f : A -> option B) (l : list A) : option (list B) :=
    match l with [] => Some [] | x :: rest => match f x, all_some f rest with Some y, Some ys => Some (y :: ys) | _, _ => None end end.
  Definition read_results (j : json) : option (list result) :=
    match j with JArray l => all_some read_result l | _ => None end.
  (** Derived [Deserialize] of a struct: from an object with its members, or from an
      array with its members in order. *)
  Definition read_family (j : json) : option (list result * list result) :=
    match j with
    | JObject m =>
        match get String.eqb "filter"%string m, get String.eqb "filter_materialize"%string m with
        | Some a, Some b => match read_results a, read_results b with Some a, Some b => Some (a, b) | _, _ => None end
        | _, _ => None
        end
    | JArray [a; b] => match read_results a, read_results b with Some a, Some b => Some (a, b) | _, _ => None end
    | _ => None
    end.
  Definition read_families (j : json) : option (list (string * (list result * list result))) :=
    match j with
    | JObject m => all_some (fun kv => option_map (pair (fst kv)) (read_family (snd kv))) m
    | _ => None
    end.
  Definition read_members (c f mt mx s : json) : option inner :=
    match read_results c, read_families f, read_results mt, read_results mx, read_results s with
    | Some c, Some f, Some mt, Some mx, Some s => Some (mkInner c f mt mx s)
    | _, _, _, _, _ => None
    end.
  Definition read_inner (j : json) : option inner :=
    match j with
    | JObject m =>
        match get String.eqb "compress"%string m, get String.eqb "filters"%string m, get String.eqb "materialize"%string m,
              get String.eqb "max"%string m, get String.eqb "sum"%string m with
        | Some c, Some f, Some mt, Some mx, Some s => read_members c f mt mx s
        | _, _, _, _, _ => None
        end
    | JArray [c; f; mt; mx; s] => read_members c f mt mx s
    | _ => None
    end.
  (** main.rs:1133-1152 [check_result_already_exist]: the type it asks for is a map
      from scheme names to [AllOutputInner].  [scheme_of] reads a name. *)
  Variable scheme_of : string -> scheme.
  Definition read_outputs (j : json) : option outputs :=
    match j with
    | JObject m => all_some (fun kv => option_map (pair (scheme_of (fst kv))) (read_inner (snd kv))) m
    | _ => None
    end.

  (** ** Measuring *)

  (** The number of calls so far, the compressed files, the saved results. *)
  Record world := mkWorld { w_calls : nat; w_files : list (string * config); w_saved : list (string * json) }.
  (** What the n-th call measures: elapsed time, size and ratio, or a failure. *)
  Variable measure : nat -> call -> option (N * N * f64).
  Definition dataset_of (c : call) : string :=
    match c with Compress d _ | Filter d _ | FilterMaterialize d _ | Materialize d | Max d | Sum d => d end.
  Definition run_call (w : world) (c : call) : world * option result :=
    let files := match c with Compress d cfg => put String.eqb d cfg (w_files w) | _ => w_files w end in
    (mkWorld (S (w_calls w)) files (w_saved w),
     match get String.eqb (dataset_of c) files, measure (w_calls w) c with
     | Some cfg, Some (elapsed, size, ratio) => Some (mkResult (w_calls w) c cfg elapsed size ratio)
     | _, _ => None
     end).
  (** [for _ in 0..n]: the results are pushed onto [rs]; a failure ends everything. *)
  Fixpoint repeat_call (n : nat) (c : call) (w : world) (rs : list result) : world * option (list result) :=
    match n with
    | O => (w, Some rs)
    | S n => let '(w, r) := run_call w c in
             match r with Some r => repeat_call n c w (rs ++ [r]) | None => (w, None) end
    end.

  (** main.rs:892-943: the filters of one configuration. *)
  Fixpoint run_filters (n : nat) (d : string) (fs : list string) (w : world) (m : list (string * (list result * list result)))
      : world * option (list (string * (list result * list result))) :=
    match fs with
    | [] => (w, Some m)
    | f :: rest =>
        let '(a, b) := match get String.eqb f m with Some ab => ab | None => ([], []) end in
        let '(w, a) := repeat_call n (Filter d f) w a in
        match a with
        | None => (w, None)
        | Some a =>
            let '(w, b) := repeat_call n (FilterMaterialize d f) w b in
            match b with None => (w, None) | Some b => run_filters n d rest w (put String.eqb f (a, b) m) end
        end
    end.

  (** main.rs:852-878: whether a configuration is skipped.  [lg64] is
      [(scale as f64).log10() as usize]; 0x43e0000000000000 is 2^63. *)
  Variable lg64 : N -> N.
  Definition scale_of (c : config) : option N := match c with CBuff s | CDeltaSprintz _ s => Some s | _ => None end.
  Definition is_finite (x : f64) : bool := match x with S754_zero _ | S754_finite _ _ _ => true | _ => false end.
  Definition skipped (c : config) (max_value : f64) : bool :=
    match scale_of c with
    | None => false
    | Some s =>
        let precision := if s =? 0 then 0 else lg64 s in
        let quantized := fmul max_value (of_Z (Z.of_N s)) in
        (negb (is_finite quantized) || flt (of_bits 0x43e0000000000000) (fabs quantized)) ||
        (scheme_eqb (config_scheme c) SBuff && (12 <? precision))
    end.

  (** main.rs:840-992 [process_experiment_for_compressor]; [None] is an error. *)
  Definition process_compressor (n : nat) (d : string) (c : config) (fs : list string) (max_value : f64) (w : world) (i : inner)
      : world * option inner :=
    if skipped c max_value then (w, Some i)
    else
      let '(w, x) := repeat_call n (Compress d c) w (i_compress i) in
      match x with None => (w, None) | Some cs =>
      let '(w, x) := run_filters n d fs w (i_filters i) in
      match x with None => (w, None) | Some fm =>
      let '(w, x) := repeat_call n (Materialize d) w (i_materialize i) in
      match x with None => (w, None) | Some mt =>
      let '(w, x) := repeat_call n (Max d) w (i_max i) in
      match x with None => (w, None) | Some mx =>
      let '(w, x) := repeat_call n (Sum d) w (i_sum i) in
      match x with None => (w, None) | Some sm =>
        let i := mkInner cs fm mt mx sm in
        (mkWorld (w_calls w) (w_files w) (put String.eqb d (json_of_inner i) (w_saved w)), Some i)
      end end end end end.

  (** main.rs:994-1053 [process_experiment_for_dataset]; the configurations come with
      the names of their files. *)
  Fixpoint process_dataset (n : nat) (d : string) (cs : list (string * config)) (fs : list string) (max_value : f64) (w : world) (os : outputs)
      : world * option outputs :=
    match cs with
    | [] => (w, Some os)
    | (_, c) :: rest =>
        let i := match get scheme_eqb (config_scheme c) os with Some i => clear i | None => empty_inner end in
        let '(w, x) := process_compressor n d c fs max_value w i in
        match x with None => (w, None) | Some i => process_dataset n d rest fs max_value w (put scheme_eqb (config_scheme c) i os) end
    end.

  (** ** All data sets *)

  (** A binary file: the components of its directory (never empty), its stem; its
      extension is .bin. *)
  Record entry := mkEntry { e_dir : list string; e_stem : string }.
  Definition entry_path (e : entry) : list string := e_dir e ++ [String.append (e_stem e) ".bin"%string].
  Definition path_eqb (a b : list string) : bool := if list_eq_dec string_dec a b then true else false.
  (** The configuration files of each data set, its filter files and its greatest
      value, and the data sets for which no configuration could be created. *)
  Record setting := mkSetting { s_configs : string -> list (string * config); s_filters : string -> list string;
    s_max : string -> f64; s_skip : list string }.
  Definition mem (x : string) (l : list string) : bool := existsb (String.eqb x) l.
  Definition saved_outputs (w : world) (d : string) : option outputs :=
    match get String.eqb d (w_saved w) with Some j => read_outputs j | None => None end.

  (** main.rs:1154-1206: the first loop.  A data set is passed over if the path made of
      its stem alone is among the paths to be patched. *)
  Fixpoint first_loop (s : setting) (n : nat) (patching : list entry) (compressors : list string) (es : list entry) (w : world) (out : all_output)
      : world * option all_output :=
    match es with
    | [] => (w, Some out)
    | e :: rest =>
        let d := e_stem e in
        if mem d (s_skip s) then first_loop s n patching compressors rest w out
        else if existsb (path_eqb [d]) (map entry_path patching) then first_loop s n patching compressors rest w out
        else
          let cs := filter (fun nc => mem (fst nc) compressors) (s_configs s d) in
          match saved_outputs w d with
          | Some os => first_loop s n patching compressors rest w (put String.eqb d os out)
          | None =>
              let os := match get String.eqb d out with Some os => os | None => [] end in
              let '(w, x) := process_dataset n d cs (s_filters s d) (s_max s d) w os in
              match x with None => (w, None) | Some os => first_loop s n patching compressors rest w (put String.eqb d os out) end
          end
    end.
  (** main.rs:1208-1246: the second loop. *)
  Fixpoint second_loop (s : setting) (n : nat) (es : list entry) (w : world) (out : all_output) : world * option all_output :=
    match es with
    | [] => (w, Some out)
    | e :: rest =>
        let d := e_stem e in
        if mem d (s_skip s) then second_loop s n rest w out
        else match saved_outputs w d with
             | Some os => second_loop s n rest w (put String.eqb d os out)
             | None =>
                 let os := match get String.eqb d out with Some os => os | None => [] end in
                 let '(w, x) := process_dataset n d (s_configs s d) (s_filters s d) (s_max s d) w os in
                 match x with None => (w, None) | Some os => second_loop s n rest w (put String.eqb d os out) end
             end
    end.
  (** main.rs:1055-1249 [all_patch_command], after the creation of configurations.
      [patching]: the entries to be patched, in the order of their [HashSet]. *)
  Definition all_patch (s : setting) (n : nat) (es patching : list entry) (compressors : list string) (w : world) (out : all_output)
      : world * option all_output :=
    let '(w, x) := first_loop s n patching compressors es w out in
    match x with None => (w, None) | Some out => second_loop s n patching w out end.
End Json.

(** main.rs:1021-1034: the greatest value of a data set, from [0.0] up; [f64::max]
    passes over NaN.  The file is a multiple of eight bytes. *)
Definition greatest_value (tie : f64 -> f64 -> bool) (xs : list N) : f64 := fold_left (fun m x => fmax tie m (of_bits x)) xs (S754_zero false).

(** ** Averages (lib.rs:265-327); the values of a [HashMap] come in any order *)

(** [Iterator::sum] from [0.0]. *)
Definition fsum (xs : list f64) : f64 := fold_left fadd xs (S754_zero false).
Definition of_nat (n : nat) : f64 := of_Z (Z.of_nat n).
Definition average_compression_ratio (os : list inner) : f64 :=
  fdiv (fsum (map (fun o => fdiv (fsum (map r_ratio (i_compress o))) (of_nat (length (i_compress o)))) os)) (of_nat (length os)).
Definition sizes (o : inner) : f64 := fsum (map (fun r => of_Z (Z.of_N (r_uncompressed r))) (i_compress o)).
Definition times_of (rs : list result) : f64 := fsum (map (fun r => of_Z (Z.of_N (r_elapsed r))) rs).
Definition average_compression_throughput (os : list inner) : f64 :=
  fdiv (fsum (map (fun o => fdiv (fdiv (sizes o) (times_of (i_compress o))) (of_nat (length (i_compress o)))) os)) (of_nat (length os)).
Definition average_decompression_throughput (os : list inner) : f64 :=
  fdiv (fsum (map (fun o => fdiv (fdiv (sizes o) (times_of (i_materialize o))) (of_nat (length (i_compress o)))) os)) (of_nat (length os)).
(** lib.rs:242-253 [transpose]. *)
Definition insert_transposed (d : string) (t : list (scheme * list (string * inner))) (ki : scheme * inner) : list (scheme * list (string * inner)) :=
  put scheme_eqb (fst ki) (put String.eqb d (snd ki) (match get scheme_eqb (fst ki) t with Some m => m | None => [] end)) t.
Definition transpose (a : all_output) : list (scheme * list (string * inner)) :=
  fold_left (fun t dm => fold_left (insert_transposed (fst dm)) (snd dm) t) a [].

(** ** Generated filters (main.rs:1350-1492 [create_config_command]) *)

(** Insertion into a sorted list, behind equal elements: a stable sort ([sort_by]) by
    [partial_cmp]. *)
Fixpoint insert_sorted (x : N) (l : list N) : list N :=
  match l with
  | [] => [x]
  | y :: rest => if flt (of_bits x) (of_bits y) then x :: l else y :: insert_sorted x rest
  end.
Definition sort_floats (xs : list N) : list N := fold_left (fun l x => insert_sorted x l) xs [].
(** The five predicates with the names of their files; an index out of range panics. *)
Definition nth_float (l : list N) (i : nat) : res unit N := match nth_error l i with Some x => Ok x | None => Panic end.
Definition filter_configs (xs : list N) : res unit (list (fpred * string)) :=
  if existsb (fun x => is_nan (of_bits x)) xs then Err tt
  else
    let fl := sort_floats xs in
    let n := N.of_nat (length xs) in
    do ten <- nth_float fl (N.to_nat (n * 10 / 100)) ;
    do half <- nth_float fl (N.to_nat (n / 2)) ;
    do ninety <- nth_float fl (N.to_nat (n * 90 / 100)) ;
    Ok [(PRange (Exclusive ten) Unbounded, "greater_10th_percentile"%string); (PRange (Exclusive half) Unbounded, "greater_50th_percentile"%string);
        (PRange (Exclusive ninety) Unbounded, "greater_90th_percentile"%string); (PEq half, "eq"%string); (PNe half, "ne"%string)].
(** The loop over them: a file is written and read again; JSON has no infinities, so
    that an infinite operand does not come back.  Then the files written so far are
    removed.  [files]: the directory before.  How a finite operand is written and read
    is not modelled. *)
Definition pred_readable (p : fpred) : bool :=
  let ok b := match b with Unbounded => true | Inclusive x | Exclusive x => is_finite (of_bits x) end in
  match p with PEq x | PNe x => is_finite (of_bits x) | PRange a b => ok a && ok b end.
Definition remove (k : string) (m : list (string * fpred)) : list (string * fpred) := List.filter (fun kv => negb (String.eqb k (fst kv))) m.
Fixpoint write_filters (ps : list (fpred * string)) (created : list string) (files : list (string * fpred)) : bool * list (string * fpred) :=
  match ps with
  | [] => (true, files)
  | (p, name) :: rest =>
      let files := put String.eqb name p files in
      let created := created ++ [name] in
      if pred_readable p then write_filters rest created files else (false, fold_left (fun m k => remove k m) created files)
  end.
Definition create_filters (xs : list N) (files : list (string * fpred)) : res unit (list (string * fpred)) * list (string * fpred) :=
  match filter_configs xs with
  | Ok ps => let '(ok, files) := write_filters ps [] files in ((if ok then Ok files else Err tt), files)
  | Err e => (Err e, files)
  | Panic => (Panic, files)
  end.

(** ** Output files *)

(** Saving is a program of system calls, so that runs can be interleaved: after each
    step the next one is known.  [exists()], [File::create] (truncates), one [write]
    of everything (write_all of a buffered writer that holds all, or is bypassed). *)
Inductive step := Probe (name : nat) | Create (name : nat) | CreateNew (name : nat) | Write (name : nat) | Done | Printed.
(** main.rs:736-754 [save_output_json] and main.rs:791-822 [write_output_json]: the
    number of the file names it.  lib.rs:599-634 [save_json_safely]. *)
Record proc := mkProc { p_content : list N; p_step : step }.
Definition disk := list (nat * list N).
Definition dget := @get nat (list N) Nat.eqb.
Definition dput := @put nat (list N) Nat.eqb.
Definition step_proc (k : disk) (p : proc) : disk * proc :=
  let next s := mkProc (p_content p) s in
  match p_step p with
  | Probe i => (k, next (match dget i k with Some _ => Probe (S i) | None => Create i end))
  | Create i => (dput i [] k, next (Write i))
  | CreateNew i => match dget i k with Some _ => (k, next Printed) | None => (dput i [] k, next (Write i)) end
  | Write i => (match dget i k with Some _ => dput i (p_content p) k | None => k end, next Done)
  | Done | Printed => (k, p)
  end.
Definition start_save (content : list N) : proc := mkProc content (Probe 0).
Definition start_save_safely (content : list N) (name : nat) : proc := mkProc content (CreateNew name).
(** A schedule: which process makes the next step. *)
Fixpoint run (schedule : list nat) (k : disk) (ps : list proc) : disk * list proc :=
  match schedule with
  | [] => (k, ps)
  | i :: rest =>
      match nth_error ps i with
      | None => run rest k ps
      | Some p => let '(k, p) := step_proc k p in run rest k (firstn i ps ++ p :: skipn (S i) ps)
      end
  end.
