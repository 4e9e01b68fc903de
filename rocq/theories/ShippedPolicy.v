(** The policy files that are installed with the programs: policy.d/90-admin-policy-default.policy,
    policy.d/35-compat.policy, policy.d/include/admin-policy-ro, policy.d/include/admin-policy-rwx,
    line by line. [text] puts the lines together. *)
From Coq Require Import String List.
From Verif Require Import Base.
Import ListNotations.
Open Scope string_scope.
Open Scope list_scope.

Definition text (ls : list string) : string := fold_right (fun l s => l +++ nl +++ s) "" ls.

(** policy.d/90-admin-policy-default.policy 1-25 *)
Definition ADMIN_DEFAULT : list string := [
  "## Do not modify this file, create a new policy file with a lower number in the";
  "## filename instead. For example `30-admin-policy.policy`.";
  "";
  "###";
  "### Policy Admin API qrexec policy";
  "###";
  "";
  "## WARNING: the services here allow viewing and changing the Qubes RPC policy,";
  "## which effectively gives the caller full control over the system. You should";
  "## allow them only to trusted qubes.";
  "";
  "## For convenience of maintaining this policy, all services include one of:";
  "##  - include/admin-policy-rwx (services to modify the policy)";
  "##  - include/admin-policy-ro (services to read the policy)";
  "";
  "!include-service policy.List             *  include/admin-policy-ro";
  "!include-service policy.include.List     *  include/admin-policy-ro";
  "!include-service policy.Get              *  include/admin-policy-ro";
  "!include-service policy.include.Get      *  include/admin-policy-ro";
  "!include-service policy.GetFiles         *  include/admin-policy-ro";
  "";
  "!include-service policy.Replace          *  include/admin-policy-rwx";
  "!include-service policy.include.Replace  *  include/admin-policy-rwx";
  "!include-service policy.Remove           *  include/admin-policy-rwx";
  "!include-service policy.include.Remove   *  include/admin-policy-rwx"].

(** policy.d/35-compat.policy 1-16 *)
Definition COMPAT : list string := [
  "#";
  "# NOTE:";
  "#";
  "# The following line enables compatibility mode. It reads files in old directory";
  "# (/etc/qubes-rpc/policy). It also generates deny rules that were previously";
  "# implicit after each file, but they are added only after policies for specific";
  "# arguments, that is, for files with '+' in the name. For generic files, without";
  "# '+', no such rules are generated and the control ""falls through"", which is";
  "# a departure from previous semantics. It is done that way not to shadow the";
  "# default rules.";
  "#";
  "# The ""!compat-4.0"" directive is transitional only and will be unavailable in";
  "# next major release (R5.0). This file will be removed in that release also.";
  "#";
  "";
  "!compat-4.0"].

(** policy.d/include/admin-policy-ro 1-12 *)
Definition ADMIN_RO : list string := [
  "## This file controls policy for read-only policy API, i.e. services that allow";
  "## reading Qubes RPC policy.";
  "";
  "## Note that policy parsing stops at the first match.";
  "";
  "## Please use a single # to start your custom comments";
  "";
  "## Include all already having write access";
  "!include include/admin-policy-rwx";
  "";
  "## Add your entries here";
  ""].

(** policy.d/include/admin-policy-rwx 1-9 *)
Definition ADMIN_RWX : list string := [
  "## This file controls policy for read-write policy API, i.e. services that";
  "## allow reading and modifying Qubes RPC policy.";
  "";
  "## Note that policy parsing stops at the first match.";
  "";
  "## Please use a single # to start your custom comments";
  "";
  "## Add your entries here";
  ""].

