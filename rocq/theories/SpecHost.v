(** * Specification of what a host reads after a rendering (C110) *)

From Verif Require Import Bytes.

(** the scripts that lead the browser to another page: reload this one, or go to [u] *)
Inductive leads : bytes -> Prop :=
| le_top : leads (B "<!DOCTYPE html><script>top.location.href=self.location.href.split('#')[0];</script>")
| le_self : leads (B "<!DOCTYPE html><script>self.location.href=self.location.href.split('#')[0]</script>")
| le_go_top u : leads (B "<!DOCTYPE html><script>top.location.href='" ++ u ++ B "';</script>")
| le_go_self u : leads (B "<!DOCTYPE html><script>self.location.href='" ++ u ++ B "';</script>").
