(** Which files the benchmark program measures (property C138). *)
From Coq Require Import Ascii.
From Verif Require Import Base Doc Model Xml Decode Perf.

(** a file whose path ends in .xml *)
Definition xml_file (v : visit) : Prop :=
  vi_dir v = false ∧ ∃ q, vi_path v = String.append q ".xml".

(** The file of path [p] is called [b], whatever its directory. *)
Definition named (p b : string) : Prop :=
  "/"%char ∉ list_ascii_of_string b ∧ (p = b ∨ ∃ d, p = String.append d (String "/" b)).
Definition same_name (p q : string) : Prop := ∃ b, named p b ∧ named q b.

(** The last file of its name that Walk comes to. *)
Definition last_named (vs : list visit) (f : string) : Prop :=
  ∃ l1 v l2, vs = l1 ++ v :: l2 ∧ xml_file v ∧ vi_path v = f ∧
    ∀ v', v' ∈ l2 → xml_file v' → ¬ same_name (vi_path v') f.

(** Reading the file gives an evaluator for the first model in it. *)
Definition loads (E : Ext) (U : unread) (S : surroundings) (f : string) (e : emodel) : Prop :=
  su_open S f = true ∧
  ∃ x doc m ms td', su_xml S f = Some x ∧ decode E U x = Some doc ∧ pm_models doc = m :: ms ∧
    new_model E (pm_dd doc) (pm_td doc) m = (Ok e, td').

(** The row that is filled with the random numbers from the [k]th on. *)
Definition random_row (rand : nat → f64) (k : nat) (r : datarow) : Prop :=
  ∃ m, r = Some m ∧
    let names := ["is_email_domain_free"; "emails_per_bank"; "dollars_out_by_email"; "dollars_in_out_1h";
                  "amount"; "emails_per_device"] in
    (∀ f, is_Some (m !! f) ↔ f ∈ names) ∧
    ∀ i f, names !! i = Some f → m !! f = Some (GF64 (rand (k + i))).
