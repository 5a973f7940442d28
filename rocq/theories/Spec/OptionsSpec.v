(** Options written as data, and what "the last one wins" means. *)
From Verif.Model Require Import Store Cache.

(** The value of a setting: that of the last element of the list that sets it. *)
Definition last_set {S X} (sel : S -> option X) (l : list S) : option X := last (omap sel l).

(** entity.Option *)
Inductive ent_syn := EUID (u : option UID) | EAttrs (a : option aref) | EDot (d : string).
Definition ent_den (s : ent_syn) : ent_option :=
  match s with EUID u => ent_with_uid u | EAttrs a => ent_with_attrs a | EDot d => ent_with_dotid d end.
Definition ent_uid_of s := match s with EUID u => Some u | _ => None end.
Definition ent_attrs_of s := match s with EAttrs a => Some a | _ => None end.
Definition ent_dot_of s := match s with EDot d => Some d | _ => None end.

(** link.Option *)
Inductive link_syn := LUID (u : option UID) | LAttrs (a : option aref) | LMerge (b : bool).
Definition link_den (s : link_syn) : link_option :=
  match s with LUID u => link_with_uid u | LAttrs a => link_with_attrs a | LMerge b => link_with_merge b end.
Definition link_uid_of s := match s with LUID u => Some u | _ => None end.
Definition link_attrs_of s := match s with LAttrs a => Some a | _ => None end.
Definition link_merge_of s := match s with LMerge b => Some b | _ => None end.

(** graph.Option *)
Inductive graph_syn :=
| GUID (u : option UID) | GDotID (d : string) | GName (s : string) | GAttrs (a : option aref)
| GWeight (x : float64) | GUpsert | GNoCache | GDot (d : dot_opts).
Definition graph_den (s : graph_syn) : graph_option :=
  match s with
  | GUID u => graph_with_uid u | GDotID d => graph_with_dotid d | GName n => graph_with_name n
  | GAttrs a => graph_with_attrs a | GWeight x => graph_with_weight x
  | GUpsert => graph_with_upsert | GNoCache => graph_with_nocache | GDot d => graph_with_dot d
  end.
Definition graph_uid_of s := match s with GUID u => Some u | _ => None end.
Definition graph_dotid_of s := match s with GDotID u => Some u | _ => None end.
Definition graph_name_of s := match s with GName u => Some u | _ => None end.
Definition graph_attrs_of s := match s with GAttrs u => Some u | _ => None end.
Definition graph_weight_of s := match s with GWeight u => Some u | _ => None end.
Definition graph_upsert_of s := match s with GUpsert => Some true | _ => None end.
Definition graph_nocache_of s := match s with GNoCache => Some true | _ => None end.
Definition graph_dot_of s := match s with GDot u => Some u | _ => None end.

(** store.Option and the options of store/memory.NewStore *)
Inductive store_syn := SUpsert | SAttrs (a : option aref).
Definition store_den (s : store_syn) : store_option :=
  match s with SUpsert => store_with_upsert | SAttrs a => store_with_attrs a end.
Definition store_upsert_of s := match s with SUpsert => Some true | _ => None end.
Definition store_attrs_of s := match s with SAttrs a => Some a | _ => None end.
Inductive mstore_syn := MUID (u : option UID) | MGraph (g : option wg).
Definition mstore_den (s : mstore_syn) : mstore_option :=
  match s with MUID u => mstore_with_uid u | MGraph g => mstore_with_graph g end.
Definition mstore_uid_of s := match s with MUID u => Some u | _ => None end.
Definition mstore_graph_of s := match s with MGraph u => Some u | _ => None end.

(** cache.Option *)
Inductive cache_syn := CUpsert.
Definition cache_den (s : cache_syn) : cache_option := match s with CUpsert => cache_with_upsert end.
Definition cache_upsert_of (s : cache_syn) := match s with CUpsert => Some true end.
