(** Model of include/geode/inspector/inspection/information.hpp: the two containers in which every
    inspection reports.  Component identifiers ([geode::uuid], 128-bit values with a total order) are natural
    numbers. *)
From Coq Require Import String Ascii List Arith NArith ZArith Bool Lia.
From Verif Require Import Base Model_Hash.
Import ListNotations.
Local Open Scope string_scope.

Definition uuid := nat.

(** information.hpp:93-96, 161-164 *)
Definition default_description : string :=
  "Default inspection issue message. This message should have been overriden.".

(** information.hpp:39-99, class InspectionIssues: the three data members. *)
Record InspectionIssues (T : Type) := mkIssues {
  ii_description : string;
  ii_issues : list T;
  ii_messages : list string }.
Arguments mkIssues {T} _ _ _.
Arguments ii_description {T} _.
Arguments ii_issues {T} _.
Arguments ii_messages {T} _.

(** information.hpp:43-46 constructor with a description *)
Definition new_issues {T} (d : string) : InspectionIssues T := mkIssues d [] [].
(** information.hpp:48 default constructor *)
Definition default_issues {T} : InspectionIssues T := new_issues default_description.
(** information.hpp:50-53 *)
Definition set_description {T} (d : string) (r : InspectionIssues T) : InspectionIssues T :=
  mkIssues d (ii_issues r) (ii_messages r).
(** information.hpp:55-58; [std::size_t] truncated to [index_t] *)
Definition nb_issues {T} (r : InspectionIssues T) : N := size32 (ii_issues r).
(** information.hpp:60-64 *)
Definition add_issue {T} (t : T) (m : string) (r : InspectionIssues T) : InspectionIssues T :=
  mkIssues (ii_description r) (ii_issues r ++ [t]) (ii_messages r ++ [m]).
(** information.hpp:71-85; the printed count is the untruncated size *)
Definition issues_string {T} (r : InspectionIssues T) : string :=
  match ii_issues r with
  | [] => StrCat ["no issues with "; ii_description r; newline]
  | _ =>
    let message := StrCat [str (List.length (ii_issues r)); " issues with "; ii_description r] in
    let message := fold_left (fun acc m => StrCat [acc; newline; tab; m]) (ii_messages r) message in
    StrCat [message; newline]
  end.

(** information.hpp:101-166, class InspectionIssuesMap.  The hash map is an association list in insertion
    order; its iteration order, visible only in [string()], is a parameter there (two maps with the same content are visited
    in the same order, a simplification). *)
Record InspectionIssuesMap (T : Type) := mkIssuesMap {
  im_description : string;
  im_map : list (uuid * InspectionIssues T) }.
Arguments mkIssuesMap {T} _ _.
Arguments im_description {T} _.
Arguments im_map {T} _.

(** information.hpp:105-108 *)
Definition new_issues_map {T} (d : string) : InspectionIssuesMap T := mkIssuesMap d [].
(** information.hpp:110 *)
Definition default_issues_map {T} : InspectionIssuesMap T := new_issues_map default_description.
(** information.hpp:112-115 *)
Definition map_set_description {T} (d : string) (r : InspectionIssuesMap T) : InspectionIssuesMap T :=
  mkIssuesMap d (im_map r).
(** information.hpp:122-125 *)
Definition map_nb_issues {T} (r : InspectionIssuesMap T) : N := size32 (im_map r).

(** lookup in the map, [issues_map().find(id)] *)
Fixpoint assoc {T} (id : uuid) (l : list (uuid * T)) : option T :=
  match l with
  | [] => None
  | (k, v) :: l' => if Nat.eqb k id then Some v else assoc id l'
  end.
(** [flat_hash_map::emplace]: no effect when the key is present *)
Definition emplace {T} (id : uuid) (v : T) (l : list (uuid * T)) : list (uuid * T) :=
  match assoc id l with
  | Some _ => l
  | None => l ++ [(id, v)]
  end.
(** information.hpp:127-135 *)
Definition add_issues_to_map {T} (id : uuid) (r : InspectionIssues T) (m : InspectionIssuesMap T) :
  InspectionIssuesMap T :=
  if N.eqb (nb_issues r) 0 then m
  else mkIssuesMap (im_description m) (emplace id r (im_map m)).
(** information.hpp:137-151; [ho]: the visiting order of the hash map *)
Definition map_string {T} (ho : HashOrder) (r : InspectionIssuesMap T) : string :=
  match im_map r with
  | [] => StrCat ["no issues with "; im_description r; newline]
  | _ =>
    let message := StrCat [str (List.length (im_map r)); " issues with "; im_description r] in
    let message := fold_left (fun acc kv => StrCat [acc; newline; tab; issues_string (snd kv)]) (visit ho (im_map r)) message in
    StrCat [message; newline]
  end.
