(** Test vectors for X25519 (RFC 7748, sections 5.2 and 6.1) and the NaCl box key, run on the
    specification and on the model.  Build-time tests, not theorems. *)
From Verif Require Import Base EdSpec BoxSpec X25519Spec TweetBox TweetDH KatBox.
Definition kat_dh_alice_sk : list Z := [119;7;109;10;115;24;165;125;60;22;193;114;81;178;102;69;223;76;47;135;235;192;153;42;177;119;251;165;29;185;44;42].
Definition kat_dh_alice_pk : list Z := [133;32;240;9;137;48;167;84;116;139;125;220;180;62;247;90;13;191;58;13;38;56;26;244;235;164;169;142;170;155;78;106].
Definition kat_dh_bob_sk : list Z := [93;171;8;126;98;74;138;75;121;225;127;139;131;128;14;230;111;59;177;41;38;24;182;253;28;47;139;39;255;136;224;235].
Definition kat_dh_bob_pk : list Z := [222;158;219;125;123;125;193;180;211;91;97;194;236;228;53;55;63;131;67;200;91;120;103;77;173;252;126;20;111;136;43;79].
Definition kat_dh_shared : list Z := [74;93;157;91;164;206;45;225;114;142;59;244;128;53;15;37;224;126;33;201;71;209;158;51;118;240;155;60;30;22;23;66].
Goal True. expect_true (leqb (x25519 kat_dh_bob_sk kat_dh_alice_pk) kat_dh_shared). exact I. Qed.
Goal True. expect_true (match crypto_box_beforenm 32 kat_dh_bob_pk kat_dh_alice_sk with Ret (0, q) => leqb q kat_box_key | _ => false end). exact I. Qed.
