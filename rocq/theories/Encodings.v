(** Model of /repo/packages/ic-asset-certification/src/asset_config.rs:437-502, [impl AssetEncoding]. *)
From Coq Require Import List.
From Verif Require Import Bytes HttpTypes AssetRouter.
Import ListNotations.

(** asset_config.rs:470-480 [default_config] *)
Definition default_config (e : encoding) : encoding * bytes :=
  (e, match e with
      | Identity => []
      | Brotli => bs ".br"
      | Zstd => bs ".zst"
      | Gzip => bs ".gz"
      | Deflate => bs ".zz"
      end).
(** asset_config.rs:497-499 [custom_config] *)
Definition custom_config (e : encoding) (extension : bytes) : encoding * bytes := (e, extension).
