(** The benchmark program, main/perftest.go.

    Simplifications: the profile, the clock and the figure that is printed are left out (one
    printed line per measured file is kept); open files are never closed in Go, here opening
    a file depends on its path alone. *)
From Coq Require Import Ascii.
From Verif Require Import Base Strconv Value Doc Expr Pred Tree Regression Model Xml Decode.

Definition slash : ascii := "/"%char.
Definition dot : ascii := "."%char.

(** path.Ext: the end of the path from its last dot, if no slash follows it; reads the
    reversed path *)
Fixpoint ext_of (acc : string) (l : list ascii) : string :=
  match l with
  | [] => ""
  | c :: l' => if decide (c = slash) then ""
               else if decide (c = dot) then String c acc
               else ext_of (String c acc) l'
  end.
Definition path_ext (p : string) : string := ext_of "" (rev (list_ascii_of_string p)).

(** path.Base: "." for the empty path, trailing slashes are dropped, what follows the last
    slash; "/" if nothing is left *)
Fixpoint drop_slashes (l : list ascii) : list ascii :=
  match l with c :: l' => if decide (c = slash) then drop_slashes l' else l | [] => [] end.
Fixpoint to_slash (l : list ascii) : list ascii :=
  match l with c :: l' => if decide (c = slash) then [] else c :: to_slash l' | [] => [] end.
Definition path_base (p : string) : string :=
  match list_ascii_of_string p with
  | [] => "."
  | l => match to_slash (drop_slashes (rev l)) with
         | [] => "/"
         | b => string_of_list_ascii (rev b)
         end
  end.

(** strings.TrimSuffix *)
Fixpoint trim_suffix (s suf : string) : string :=
  if s =s suf then "" else match s with "" => "" | String c s' => String c (trim_suffix s' suf) end.

(** One call of the function given to filepath.Walk, main/perftest.go:27-42.  Walk ends with
    the first error that this function returns. *)
Record visit : Type := Visit { vi_path : string; vi_failed : bool; vi_dir : bool }.
Fixpoint walk (vs : list visit) (found : gmap string string) : option (gmap string string) :=
  match vs with
  | [] => Some found
  | v :: vs =>
      if vi_failed v then None
      else if vi_dir v then walk vs found
      else if path_ext (vi_path v) =s ".xml" then
        walk vs (<[trim_suffix (path_base (vi_path v)) (path_ext (vi_path v)) := vi_path v]> found)
      else walk vs found
  end.

(** What the program finds outside: whether /tmp/cpu.prof can be created, the files, the
    element tree of a file (None if its XML is broken) and the numbers of rand.Float64. *)
Record surroundings : Type := {
  su_profile : bool;
  su_walk : list visit;
  su_open : string → bool;
  su_xml : string → option xml;
  su_rand : nat → f64
}.

(** Why the program panicked. *)
Inductive death : Type :=
| DProfile
| DWalk
| DOpen (f : string)
| DXml (f : string)
| DNoModel (f : string)
| DNewModel (f : string) (x : err)
| DNewModelPanic (f : string) (x : panic)
| DEvaluate (f : string) (x : err)
| DEvaluatePanic (f : string) (x : panic).

(** The row of one iteration, main/perftest.go:75-81; [k] numbers were drawn before. *)
Definition bench_row (S : surroundings) (k : nat) : datarow :=
  Some (<["emails_per_device" := GF64 (su_rand S (5 + k))]>
       (<["amount" := GF64 (su_rand S (4 + k))]>
       (<["dollars_in_out_1h" := GF64 (su_rand S (3 + k))]>
       (<["dollars_out_by_email" := GF64 (su_rand S (2 + k))]>
       (<["emails_per_bank" := GF64 (su_rand S (1 + k))]>
       (<["is_email_domain_free" := GF64 (su_rand S k)]> ∅)))))).

(** The loop over the iterations, main/perftest.go:74-87, [n] of them left. *)
Fixpoint bench_loop (E : Ext) (S : surroundings) (f : string) (tk : ticket) (k : nat) (e : emodel) (n : nat)
    : option death :=
  match n with
  | 0 => None
  | Datatypes.S n =>
      match evaluate E (n :: tk) e (bench_row S k) with
      | ((Ok _, _), e') => bench_loop E S f tk (6 + k) e' n
      | ((Err x, _), _) => Some (DEvaluate f x)
      | ((Panic x, _), _) => Some (DEvaluatePanic f x)
      end
  end.

(** One file, main/perftest.go:49-92. *)
Definition bench_file (E : Ext) (U : unread) (S : surroundings) (n : nat) (tk : ticket) (k : nat) (f : string)
    : option death :=
  if negb (su_open S f) then Some (DOpen f)
  else match x ← su_xml S f; decode E U x with
       | None => Some (DXml f)
       | Some doc =>
           match pm_models doc with
           | [] => Some (DNoModel f)
           | m :: _ =>
               match (new_model E (pm_dd doc) (pm_td doc) m).1 with
               | Ok e => bench_loop E S f tk k e n
               | Err x => Some (DNewModel f x)
               | Panic x => Some (DNewModelPanic f x)
               end
           end
       end.

(** The loop over the files, main/perftest.go:48-94: the files measured and why it ended
    early, if it did. *)
Fixpoint bench_files (E : Ext) (U : unread) (S : surroundings) (n i k : nat) (fs : list string)
    : list string * option death :=
  match fs with
  | [] => ([], None)
  | f :: fs =>
      match bench_file E U S n [i; 1] k f with
      | Some d => ([], Some d)
      | None => let '(out, d) := bench_files E U S n (1 + i) (6 * n + k) fs in (f :: out, d)
      end
  end.

(** The program for [n] iterations per file, main/perftest.go:18-95. *)
Definition bench (E : Ext) (U : unread) (S : surroundings) (n : nat) : list string * option death :=
  if negb (su_profile S) then ([], Some DProfile)
  else match walk (su_walk S) ∅ with
       | None => ([], Some DWalk)
       | Some files => bench_files E U S n 0 0 (map_range E [0] files).*2
       end.

(** func main, main/perftest.go:71: iterations := 100000 *)
Definition main (E : Ext) (U : unread) (S : surroundings) : list string * option death :=
  bench E U S (N.to_nat 100000).
