(** Calls on a builder for the examples, on the table of E_Open. *)
From Verif Require Import Base Str M_Time M_Instant M_Timeline M_FileGroup M_Builder M_Listing M_Expr M_Log M_Config M_Reader M_Table M_Storage M_Objects M_Open M_Calls
  S_Timeline S_Config S_Calls L_Timeline L_Expr E_Scan E_Open.
Local Open Scope string_scope.

Definition kx_calls : list call :=
  [One Generic "hoodie.read.input.partitions" "1"; One Storage "region" "a"; Many Generic [("hoodie.read.input.partitions", "2"); ("region", "b"); ("hoodie.table.version", "7")];
   Many Hudi [("hoodie.read.listing.parallelism", "3"); ("extra", "e")]; One Generic "hoodie.read.listing.parallelism" "9"; One Hudi "hoodie.base.path" "elsewhere"].
(** Other calls that give the same. *)
Definition kx_calls' : list call :=
  [Many Hudi [("extra", "?"); ("hoodie.base.path", "elsewhere"); ("extra", "e")]; One Generic "hoodie.table.version" "7"; One Generic "region" "b"; One Hudi "hoodie.read.listing.parallelism" "3";
   Many Generic [("hoodie.read.listing.parallelism", "9"); ("hoodie.read.input.partitions", "2")]; One Storage "region" "a"].
Definition kx_env : list (string * string) := [("AWS_REGION", "e"); ("HOME", "h")].
Definition kx_build (props : list string) (b : builder) : builder * outcome (table * url * list object) :=
  build_mut (fun m => m) kx_env bx_parse (fun _ _ => Ok (bx_objects (bx_props "6" props) [])) (fun _ => Ok ("hoodie.global x" ++ LF)) sx_local isort b.
Definition kx_fresh (calls : list call) : builder := with_calls (from_base_uri "file:///data/t/") calls.
(** What a result shows of some options. *)
Definition shown (keys : list string) (r : outcome (table * url * list object)) : option (list (option string * option string)) :=
  match r with Ok (tb, _, _) => Some (map (fun k => (oget k (t_configs tb), oget k (t_storage tb))) keys) | _ => None end.
Definition kx_keys := ["hoodie.read.input.partitions"; "hoodie.read.listing.parallelism"; "hoodie.table.version"; "hoodie.base.path"; "extra"; "region"; "aws_region"; "hoodie.global"].
Fact kx_shown : shown kx_keys (snd (kx_build [] (kx_fresh kx_calls))) =
  Some [(Some "2", None); (Some "3", None); (Some "6", None); (Some "file:///data/t/", None); (Some "e", None); (None, Some "a"); (None, Some "e"); (Some "x", None)].
Proof. vm_compute. reflexivity. Qed.
(** The first attempt fails: the store has no such table yet. *)
Definition kx_failed : builder := fst (build_mut (fun m => m) kx_env bx_parse (fun _ _ => Ok []) (fun _ => Err EStorage) sx_local isort (kx_fresh kx_calls)).
