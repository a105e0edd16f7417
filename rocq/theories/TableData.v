(** Generated by tools/gen_tables.py from the .npy files in spherical_functions/: the doubles of the three tables as [(M, e)], for M * 2^e. *)
Require Import ZArith List.
Import ListNotations.
Open Scope Z_scope.

(** spherical_functions/binomial_coefficients.npy, all 2145 entries in the order of the file *)
Definition binomial_file : list (Z * Z) :=
  [(0x10000000000000, (-52));
   (0x10000000000000, (-52));
   (0x10000000000000, (-52));
   (0x10000000000000, (-52));
   (0x10000000000000, (-51));
   (0x10000000000000, (-52));
   (0x10000000000000, (-52));
   (0x18000000000000, (-51));
   (0x18000000000000, (-51));
   (0x10000000000000, (-52));
   (0x10000000000000, (-52));
   (0x10000000000000, (-50));
   (0x18000000000000, (-50));
   (0x10000000000000, (-50));
   (0x10000000000000, (-52));
   (0x10000000000000, (-52));
   (0x14000000000000, (-50));
   (0x14000000000000, (-49));
   (0x14000000000000, (-49));
   (0x14000000000000, (-50));
   (0x10000000000000, (-52));
   (0x10000000000000, (-52));
   (0x18000000000000, (-50));
   (0x1e000000000000, (-49));
   (0x14000000000000, (-48));
   (0x1e000000000000, (-49));
   (0x18000000000000, (-50));
   (0x10000000000000, (-52));
   (0x10000000000000, (-52));
   (0x1c000000000000, (-50));
   (0x15000000000000, (-48));
   (0x11800000000000, (-47));
   (0x11800000000000, (-47));
   (0x15000000000000, (-48));
   (0x1c000000000000, (-50));
   (0x10000000000000, (-52));
   (0x10000000000000, (-52));
   (0x10000000000000, (-49));
   (0x1c000000000000, (-48));
   (0x1c000000000000, (-47));
   (0x11800000000000, (-46));
   (0x1c000000000000, (-47));
   (0x1c000000000000, (-48));
   (0x10000000000000, (-49));
   (0x10000000000000, (-52));
   (0x10000000000000, (-52));
   (0x12000000000000, (-49));
   (0x12000000000000, (-47));
   (0x15000000000000, (-46));
   (0x1f800000000000, (-46));
   (0x1f800000000000, (-46));
   (0x15000000000000, (-46));
   (0x12000000000000, (-47));
   (0x12000000000000, (-49));
   (0x10000000000000, (-52));
   (0x10000000000000, (-52));
   (0x14000000000000, (-49));
   (0x16800000000000, (-47));
   (0x1e000000000000, (-46));
   (0x1a400000000000, (-45));
   (0x1f800000000000, (-45));
   (0x1a400000000000, (-45));
   (0x1e000000000000, (-46));
   (0x16800000000000, (-47));
   (0x14000000000000, (-49));
   (0x10000000000000, (-52));
   (0x10000000000000, (-52));
   (0x16000000000000, (-49));
   (0x1b800000000000, (-47));
   (0x14a00000000000, (-45));
   (0x14a00000000000, (-44));
   (0x1ce00000000000, (-44));
   (0x1ce00000000000, (-44));
   (0x14a00000000000, (-44));
   (0x14a00000000000, (-45));
   (0x1b800000000000, (-47));
   (0x16000000000000, (-49));
   (0x10000000000000, (-52));
   (0x10000000000000, (-52));
   (0x18000000000000, (-49));
   (0x10800000000000, (-46));
   (0x1b800000000000, (-45));
   (0x1ef00000000000, (-44));
   (0x18c00000000000, (-43));
   (0x1ce00000000000, (-43));
   (0x18c00000000000, (-43));
   (0x1ef00000000000, (-44));
   (0x1b800000000000, (-45));
   (0x10800000000000, (-46));
   (0x18000000000000, (-49));
   (0x10000000000000, (-52));
   (0x10000000000000, (-52));
   (0x1a000000000000, (-49));
   (0x13800000000000, (-46));
   (0x11e00000000000, (-44));
   (0x16580000000000, (-43));
   (0x141c0000000000, (-42));
   (0x1ad00000000000, (-42));
   (0x1ad00000000000, (-42));
   (0x141c0000000000, (-42));
   (0x16580000000000, (-43));
   (0x11e00000000000, (-44));
   (0x13800000000000, (-46));
   (0x1a000000000000, (-49));
   (0x10000000000000, (-52));
   (0x10000000000000, (-52));
   (0x1c000000000000, (-49));
   (0x16c00000000000, (-46));
   (0x16c00000000000, (-44));
   (0x1f480000000000, (-43));
   (0x1f480000000000, (-42));
   (0x17760000000000, (-41));
   (0x1ad00000000000, (-41));
   (0x17760000000000, (-41));
   (0x1f480000000000, (-42));
   (0x1f480000000000, (-43));
   (0x16c00000000000, (-44));
   (0x16c00000000000, (-46));
   (0x1c000000000000, (-49));
   (0x10000000000000, (-52));
   (0x10000000000000, (-52));
   (0x1e000000000000, (-49));
   (0x1a400000000000, (-46));
   (0x1c700000000000, (-44));
   (0x15540000000000, (-42));
   (0x17760000000000, (-41));
   (0x138d0000000000, (-40));
   (0x19230000000000, (-40));
   (0x19230000000000, (-40));
   (0x138d0000000000, (-40));
   (0x17760000000000, (-41));
   (0x15540000000000, (-42));
   (0x1c700000000000, (-44));
   (0x1a400000000000, (-46));
   (0x1e000000000000, (-49));
   (0x10000000000000, (-52));
   (0x10000000000000, (-52));
   (0x10000000000000, (-48));
   (0x1e000000000000, (-46));
   (0x11800000000000, (-43));
   (0x1c700000000000, (-42));
   (0x11100000000000, (-40));
   (0x1f480000000000, (-40));
   (0x16580000000000, (-39));
   (0x19230000000000, (-39));
   (0x16580000000000, (-39));
   (0x1f480000000000, (-40));
   (0x11100000000000, (-40));
   (0x1c700000000000, (-42));
   (0x11800000000000, (-43));
   (0x1e000000000000, (-46));
   (0x10000000000000, (-48));
   (0x10000000000000, (-52));
   (0x10000000000000, (-52));
   (0x11000000000000, (-48));
   (0x11000000000000, (-45));
   (0x15400000000000, (-43));
   (0x12980000000000, (-41));
   (0x182c0000000000, (-40));
   (0x182c0000000000, (-39));
   (0x12fe0000000000, (-38));
   (0x17bd8000000000, (-38));
   (0x17bd8000000000, (-38));
   (0x12fe0000000000, (-38));
   (0x182c0000000000, (-39));
   (0x182c0000000000, (-40));
   (0x12980000000000, (-41));
   (0x15400000000000, (-43));
   (0x11000000000000, (-45));
   (0x11000000000000, (-48));
   (0x10000000000000, (-52));
   (0x10000000000000, (-52));
   (0x12000000000000, (-48));
   (0x13200000000000, (-45));
   (0x19800000000000, (-43));
   (0x17e80000000000, (-41));
   (0x10bc0000000000, (-39));
   (0x12210000000000, (-38));
   (0x1f140000000000, (-38));
   (0x155dc000000000, (-37));
   (0x17bd8000000000, (-37));
   (0x155dc000000000, (-37));
   (0x1f140000000000, (-38));
   (0x12210000000000, (-38));
   (0x10bc0000000000, (-39));
   (0x17e80000000000, (-41));
   (0x19800000000000, (-43));
   (0x13200000000000, (-45));
   (0x12000000000000, (-48));
   (0x10000000000000, (-52));
   (0x10000000000000, (-52));
   (0x13000000000000, (-48));
   (0x15600000000000, (-45));
   (0x1e480000000000, (-43));
   (0x1e480000000000, (-41));
   (0x16b60000000000, (-39));
   (0x1a7f0000000000, (-38));
   (0x189a8000000000, (-37));
   (0x1273e000000000, (-36));
   (0x168da000000000, (-36));
   (0x168da000000000, (-36));
   (0x1273e000000000, (-36));
   (0x189a8000000000, (-37));
   (0x1a7f0000000000, (-38));
   (0x16b60000000000, (-39));
   (0x1e480000000000, (-41));
   (0x1e480000000000, (-43));
   (0x15600000000000, (-45));
   (0x13000000000000, (-48));
   (0x10000000000000, (-52));
   (0x10000000000000, (-52));
   (0x14000000000000, (-48));
   (0x17c00000000000, (-45));
   (0x11d00000000000, (-42));
   (0x12ed0000000000, (-40));
   (0x1e480000000000, (-39));
   (0x12ed0000000000, (-37));
   (0x12ed0000000000, (-36));
   (0x1ec12000000000, (-36));
   (0x1480c000000000, (-35));
   (0x168da000000000, (-35));
   (0x1480c000000000, (-35));
   (0x1ec12000000000, (-36));
   (0x12ed0000000000, (-36));
   (0x12ed0000000000, (-37));
   (0x1e480000000000, (-39));
   (0x12ed0000000000, (-40));
   (0x11d00000000000, (-42));
   (0x17c00000000000, (-45));
   (0x14000000000000, (-48));
   (0x10000000000000, (-52));
   (0x10000000000000, (-52));
   (0x15000000000000, (-48));
   (0x1a400000000000, (-45));
   (0x14c80000000000, (-42));
   (0x17610000000000, (-40));
   (0x13df4000000000, (-38));
   (0x1a7f0000000000, (-37));
   (0x1c638000000000, (-36));
   (0x18d71000000000, (-35));
   (0x11f0a800000000, (-34));
   (0x15873000000000, (-34));
   (0x15873000000000, (-34));
   (0x11f0a800000000, (-34));
   (0x18d71000000000, (-35));
   (0x1c638000000000, (-36));
   (0x1a7f0000000000, (-37));
   (0x13df4000000000, (-38));
   (0x17610000000000, (-40));
   (0x14c80000000000, (-42));
   (0x1a400000000000, (-45));
   (0x15000000000000, (-48));
   (0x10000000000000, (-52));
   (0x10000000000000, (-52));
   (0x16000000000000, (-48));
   (0x1ce00000000000, (-45));
   (0x18100000000000, (-42));
   (0x1c930000000000, (-40));
   (0x19b78000000000, (-38));
   (0x12375000000000, (-36));
   (0x14d18000000000, (-35));
   (0x13846800000000, (-34));
   (0x1e5c3000000000, (-34));
   (0x13bbec00000000, (-33));
   (0x15873000000000, (-33));
   (0x13bbec00000000, (-33));
   (0x1e5c3000000000, (-34));
   (0x13846800000000, (-34));
   (0x14d18000000000, (-35));
   (0x12375000000000, (-36));
   (0x19b78000000000, (-38));
   (0x1c930000000000, (-40));
   (0x18100000000000, (-42));
   (0x1ce00000000000, (-45));
   (0x16000000000000, (-48));
   (0x10000000000000, (-52));
   (0x10000000000000, (-52));
   (0x17000000000000, (-48));
   (0x1fa00000000000, (-45));
   (0x1bac0000000000, (-42));
   (0x114b8000000000, (-39));
   (0x106e2000000000, (-37));
   (0x18a53000000000, (-36));
   (0x1ded2800000000, (-35));
   (0x1ded2800000000, (-34));
   (0x18f04c00000000, (-33));
   (0x11750200000000, (-32));
   (0x14a18e00000000, (-32));
   (0x14a18e00000000, (-32));
   (0x11750200000000, (-32));
   (0x18f04c00000000, (-33));
   (0x1ded2800000000, (-34));
   (0x1ded2800000000, (-35));
   (0x18a53000000000, (-36));
   (0x106e2000000000, (-37));
   (0x114b8000000000, (-39));
   (0x1bac0000000000, (-42));
   (0x1fa00000000000, (-45));
   (0x17000000000000, (-48));
   (0x10000000000000, (-52));
   (0x10000000000000, (-52));
   (0x18000000000000, (-48));
   (0x11400000000000, (-44));
   (0x1fa00000000000, (-42));
   (0x14c10000000000, (-39));
   (0x14c10000000000, (-37));
   (0x106e2000000000, (-35));
   (0x151fe000000000, (-34));
   (0x1671de00000000, (-33));
   (0x13f37000000000, (-32));
   (0x1ded2800000000, (-32));
   (0x130b4800000000, (-31));
   (0x14a18e00000000, (-31));
   (0x130b4800000000, (-31));
   (0x1ded2800000000, (-32));
   (0x13f37000000000, (-32));
   (0x1671de00000000, (-33));
   (0x151fe000000000, (-34));
   (0x106e2000000000, (-35));
   (0x14c10000000000, (-37));
   (0x14c10000000000, (-39));
   (0x1fa00000000000, (-42));
   (0x11400000000000, (-44));
   (0x18000000000000, (-48));
   (0x10000000000000, (-52));
   (0x10000000000000, (-52));
   (0x19000000000000, (-48));
   (0x12c00000000000, (-44));
   (0x11f80000000000, (-41));
   (0x18b50000000000, (-39));
   (0x19f14000000000, (-37));
   (0x159e6000000000, (-35));
   (0x1d56f000000000, (-34));
   (0x1080e700000000, (-32));
   (0x1f2c5f00000000, (-32));
   (0x18f04c00000000, (-31));
   (0x1100ee00000000, (-30));
   (0x13d66b00000000, (-30));
   (0x13d66b00000000, (-30));
   (0x1100ee00000000, (-30));
   (0x18f04c00000000, (-31));
   (0x1f2c5f00000000, (-32));
   (0x1080e700000000, (-32));
   (0x1d56f000000000, (-34));
   (0x159e6000000000, (-35));
   (0x19f14000000000, (-37));
   (0x18b50000000000, (-39));
   (0x11f80000000000, (-41));
   (0x12c00000000000, (-44));
   (0x19000000000000, (-48));
   (0x10000000000000, (-52));
   (0x10000000000000, (-52));
   (0x1a000000000000, (-48));
   (0x14500000000000, (-44));
   (0x14500000000000, (-41));
   (0x1d330000000000, (-39));
   (0x100f4000000000, (-36));
   (0x1c1ab000000000, (-35));
   (0x14131000000000, (-33));
   (0x17d6a300000000, (-32));
   (0x17d6a300000000, (-31));
   (0x14433dc0000000, (-30));
   (0x1d791400000000, (-30));
   (0x126bac80000000, (-29));
   (0x13d66b00000000, (-29));
   (0x126bac80000000, (-29));
   (0x1d791400000000, (-30));
   (0x14433dc0000000, (-30));
   (0x17d6a300000000, (-31));
   (0x17d6a300000000, (-32));
   (0x14131000000000, (-33));
   (0x1c1ab000000000, (-35));
   (0x100f4000000000, (-36));
   (0x1d330000000000, (-39));
   (0x14500000000000, (-41));
   (0x14500000000000, (-44));
   (0x1a000000000000, (-48));
   (0x10000000000000, (-52));
   (0x10000000000000, (-52));
   (0x1b000000000000, (-48));
   (0x15f00000000000, (-44));
   (0x16da0000000000, (-41));
   (0x11238000000000, (-38));
   (0x13b5a000000000, (-36));
   (0x12112800000000, (-34));
   (0x1b19bc00000000, (-33));
   (0x10f01580000000, (-31));
   (0x11e0fa40000000, (-30));
   (0x101747a0000000, (-29));
   (0x18de28e0000000, (-29));
   (0x10941b40000000, (-28));
   (0x13210bc0000000, (-28));
   (0x13210bc0000000, (-28));
   (0x10941b40000000, (-28));
   (0x18de28e0000000, (-29));
   (0x101747a0000000, (-29));
   (0x11e0fa40000000, (-30));
   (0x10f01580000000, (-31));
   (0x1b19bc00000000, (-33));
   (0x12112800000000, (-34));
   (0x13b5a000000000, (-36));
   (0x11238000000000, (-38));
   (0x16da0000000000, (-41));
   (0x15f00000000000, (-44));
   (0x1b000000000000, (-48));
   (0x10000000000000, (-52));
   (0x10000000000000, (-52));
   (0x1c000000000000, (-48));
   (0x17a00000000000, (-44));
   (0x19980000000000, (-41));
   (0x13fec000000000, (-38));
   (0x17fe8000000000, (-36));
   (0x16fe9000000000, (-34));
   (0x12112800000000, (-32));
   (0x17b68480000000, (-31));
   (0x1a590500000000, (-30));
   (0x1907c4c0000000, (-29));
   (0x147ab840000000, (-28));
   (0x1d032fb0000000, (-28));
   (0x11da9380000000, (-27));
   (0x13210bc0000000, (-27));
   (0x11da9380000000, (-27));
   (0x1d032fb0000000, (-28));
   (0x147ab840000000, (-28));
   (0x1907c4c0000000, (-29));
   (0x1a590500000000, (-30));
   (0x17b68480000000, (-31));
   (0x12112800000000, (-32));
   (0x16fe9000000000, (-34));
   (0x17fe8000000000, (-36));
   (0x13fec000000000, (-38));
   (0x19980000000000, (-41));
   (0x17a00000000000, (-44));
   (0x1c000000000000, (-48));
   (0x10000000000000, (-52));
   (0x10000000000000, (-52));
   (0x1d000000000000, (-48));
   (0x19600000000000, (-44));
   (0x1c8c0000000000, (-41));
   (0x1731c000000000, (-38));
   (0x1cfe3000000000, (-36));
   (0x1cfe3000000000, (-34));
   (0x17d0cc00000000, (-32));
   (0x105f8c40000000, (-30));
   (0x131a23a0000000, (-29));
   (0x131a23a0000000, (-28));
   (0x107f4d50000000, (-27));
   (0x18bef3f8000000, (-27));
   (0x102e15ac000000, (-26));
   (0x127dcfa0000000, (-26));
   (0x127dcfa0000000, (-26));
   (0x102e15ac000000, (-26));
   (0x18bef3f8000000, (-27));
   (0x107f4d50000000, (-27));
   (0x131a23a0000000, (-28));
   (0x131a23a0000000, (-29));
   (0x105f8c40000000, (-30));
   (0x17d0cc00000000, (-32));
   (0x1cfe3000000000, (-34));
   (0x1cfe3000000000, (-36));
   (0x1731c000000000, (-38));
   (0x1c8c0000000000, (-41));
   (0x19600000000000, (-44));
   (0x1d000000000000, (-48));
   (0x10000000000000, (-52));
   (0x10000000000000, (-52));
   (0x1e000000000000, (-48));
   (0x1b300000000000, (-44));
   (0x1fb80000000000, (-41));
   (0x1ac34000000000, (-38));
   (0x11655000000000, (-35));
   (0x121ede00000000, (-33));
   (0x1f105800000000, (-32));
   (0x1653bf40000000, (-30));
   (0x1b49e9c0000000, (-29));
   (0x1ca73570000000, (-28));
   (0x1a0c5f20000000, (-27));
   (0x149f20a4000000, (-26));
   (0x1c8d8fa8000000, (-26));
   (0x1155f2a6000000, (-25));
   (0x127dcfa0000000, (-25));
   (0x1155f2a6000000, (-25));
   (0x1c8d8fa8000000, (-26));
   (0x149f20a4000000, (-26));
   (0x1a0c5f20000000, (-27));
   (0x1ca73570000000, (-28));
   (0x1b49e9c0000000, (-29));
   (0x1653bf40000000, (-30));
   (0x1f105800000000, (-32));
   (0x121ede00000000, (-33));
   (0x11655000000000, (-35));
   (0x1ac34000000000, (-38));
   (0x1fb80000000000, (-41));
   (0x1b300000000000, (-44));
   (0x1e000000000000, (-48));
   (0x10000000000000, (-52));
   (0x10000000000000, (-52));
   (0x1f000000000000, (-48));
   (0x1d100000000000, (-44));
   (0x118f0000000000, (-40));
   (0x1eba4000000000, (-38));
   (0x14bdb800000000, (-35));
   (0x16783200000000, (-33));
   (0x140fe380000000, (-31));
   (0x1e17d540000000, (-30));
   (0x1339e4b0000000, (-28));
   (0x15261528000000, (-27));
   (0x142ffcec000000, (-26));
   (0x10d2a81a000000, (-25));
   (0x18965826000000, (-25));
   (0x1f9cba7a000000, (-25));
   (0x11e9e123000000, (-24));
   (0x11e9e123000000, (-24));
   (0x1f9cba7a000000, (-25));
   (0x18965826000000, (-25));
   (0x10d2a81a000000, (-25));
   (0x142ffcec000000, (-26));
   (0x15261528000000, (-27));
   (0x1339e4b0000000, (-28));
   (0x1e17d540000000, (-30));
   (0x140fe380000000, (-31));
   (0x16783200000000, (-33));
   (0x14bdb800000000, (-35));
   (0x1eba4000000000, (-38));
   (0x118f0000000000, (-40));
   (0x1d100000000000, (-44));
   (0x1f000000000000, (-48));
   (0x10000000000000, (-52));
   (0x10000000000000, (-52));
   (0x10000000000000, (-47));
   (0x1f000000000000, (-44));
   (0x13600000000000, (-40));
   (0x118f0000000000, (-37));
   (0x18950000000000, (-35));
   (0x1ba7a000000000, (-33));
   (0x19adf000000000, (-31));
   (0x140fe380000000, (-29));
   (0x1abfda00000000, (-28));
   (0x1ec30780000000, (-27));
   (0x1ec30780000000, (-26));
   (0x1aeaa690000000, (-25));
   (0x14b48020000000, (-24));
   (0x1c198950000000, (-24));
   (0x10dc1f30000000, (-23));
   (0x11e9e123000000, (-23));
   (0x10dc1f30000000, (-23));
   (0x1c198950000000, (-24));
   (0x14b48020000000, (-24));
   (0x1aeaa690000000, (-25));
   (0x1ec30780000000, (-26));
   (0x1ec30780000000, (-27));
   (0x1abfda00000000, (-28));
   (0x140fe380000000, (-29));
   (0x19adf000000000, (-31));
   (0x1ba7a000000000, (-33));
   (0x18950000000000, (-35));
   (0x118f0000000000, (-37));
   (0x13600000000000, (-40));
   (0x1f000000000000, (-44));
   (0x10000000000000, (-47));
   (0x10000000000000, (-52));
   (0x10000000000000, (-52));
   (0x10800000000000, (-47));
   (0x10800000000000, (-43));
   (0x15500000000000, (-40));
   (0x13fb0000000000, (-37));
   (0x1cf8c000000000, (-35));
   (0x10e67000000000, (-32));
   (0x104bec00000000, (-30));
   (0x1a7b5f80000000, (-29));
   (0x1263e5e0000000, (-27));
   (0x16117a40000000, (-26));
   (0x171245a0000000, (-25));
   (0x15261528000000, (-24));
   (0x1114e9b4000000, (-23));
   (0x186704b8000000, (-23));
   (0x1ee8e3d8000000, (-23));
   (0x11630029800000, (-22));
   (0x11630029800000, (-22));
   (0x1ee8e3d8000000, (-23));
   (0x186704b8000000, (-23));
   (0x1114e9b4000000, (-23));
   (0x15261528000000, (-24));
   (0x171245a0000000, (-25));
   (0x16117a40000000, (-26));
   (0x1263e5e0000000, (-27));
   (0x1a7b5f80000000, (-29));
   (0x104bec00000000, (-30));
   (0x10e67000000000, (-32));
   (0x1cf8c000000000, (-35));
   (0x13fb0000000000, (-37));
   (0x15500000000000, (-40));
   (0x10800000000000, (-43));
   (0x10800000000000, (-47));
   (0x10000000000000, (-52));
   (0x10000000000000, (-52));
   (0x11000000000000, (-47));
   (0x11880000000000, (-43));
   (0x17600000000000, (-40));
   (0x16a50000000000, (-37));
   (0x10fbc000000000, (-34));
   (0x14858800000000, (-32));
   (0x14858800000000, (-30));
   (0x1150aac0000000, (-28));
   (0x1902bdc0000000, (-27));
   (0x1f436d30000000, (-26));
   (0x110d8160000000, (-24));
   (0x10579bfc000000, (-23));
   (0x1ba7f448000000, (-23));
   (0x14bdf736000000, (-22));
   (0x1ba7f448000000, (-22));
   (0x106bb90ac00000, (-21));
   (0x11630029800000, (-21));
   (0x106bb90ac00000, (-21));
   (0x1ba7f448000000, (-22));
   (0x14bdf736000000, (-22));
   (0x1ba7f448000000, (-23));
   (0x10579bfc000000, (-23));
   (0x110d8160000000, (-24));
   (0x1f436d30000000, (-26));
   (0x1902bdc0000000, (-27));
   (0x1150aac0000000, (-28));
   (0x14858800000000, (-30));
   (0x14858800000000, (-32));
   (0x10fbc000000000, (-34));
   (0x16a50000000000, (-37));
   (0x17600000000000, (-40));
   (0x11880000000000, (-43));
   (0x11000000000000, (-47));
   (0x10000000000000, (-52));
   (0x10000000000000, (-52));
   (0x11800000000000, (-47));
   (0x12980000000000, (-43));
   (0x19910000000000, (-40));
   (0x19910000000000, (-37));
   (0x13d06000000000, (-34));
   (0x18c47800000000, (-32));
   (0x19a6ea00000000, (-30));
   (0x16720cc0000000, (-28));
   (0x10d58990000000, (-26));
   (0x15e26608000000, (-25));
   (0x18de5cac000000, (-24));
   (0x18de5cac000000, (-23));
   (0x15ffc822000000, (-22));
   (0x1148f8ad000000, (-21));
   (0x1832f5bf000000, (-21));
   (0x1e3fb32ec00000, (-21));
   (0x10e75c9a200000, (-20));
   (0x10e75c9a200000, (-20));
   (0x1e3fb32ec00000, (-21));
   (0x1832f5bf000000, (-21));
   (0x1148f8ad000000, (-21));
   (0x15ffc822000000, (-22));
   (0x18de5cac000000, (-23));
   (0x18de5cac000000, (-24));
   (0x15e26608000000, (-25));
   (0x10d58990000000, (-26));
   (0x16720cc0000000, (-28));
   (0x19a6ea00000000, (-30));
   (0x18c47800000000, (-32));
   (0x13d06000000000, (-34));
   (0x19910000000000, (-37));
   (0x19910000000000, (-40));
   (0x12980000000000, (-43));
   (0x11800000000000, (-47));
   (0x10000000000000, (-52));
   (0x10000000000000, (-52));
   (0x12000000000000, (-47));
   (0x13b00000000000, (-43));
   (0x1be40000000000, (-40));
   (0x1cc32000000000, (-37));
   (0x17028000000000, (-34));
   (0x1db89000000000, (-32));
   (0x1fd80800000000, (-30));
   (0x1cdbc740000000, (-28));
   (0x16720cc0000000, (-26));
   (0x1e4d2ad0000000, (-25));
   (0x11e7c7d8000000, (-23));
   (0x12a6c581000000, (-22));
   (0x11377b3c000000, (-21));
   (0x1c48dcbe000000, (-21));
   (0x14bdf736000000, (-20));
   (0x1b395476e00000, (-20));
   (0x10039b18c00000, (-19));
   (0x10e75c9a200000, (-19));
   (0x10039b18c00000, (-19));
   (0x1b395476e00000, (-20));
   (0x14bdf736000000, (-20));
   (0x1c48dcbe000000, (-21));
   (0x11377b3c000000, (-21));
   (0x12a6c581000000, (-22));
   (0x11e7c7d8000000, (-23));
   (0x1e4d2ad0000000, (-25));
   (0x16720cc0000000, (-26));
   (0x1cdbc740000000, (-28));
   (0x1fd80800000000, (-30));
   (0x1db89000000000, (-32));
   (0x17028000000000, (-34));
   (0x1cc32000000000, (-37));
   (0x1be40000000000, (-40));
   (0x13b00000000000, (-43));
   (0x12000000000000, (-47));
   (0x10000000000000, (-52));
   (0x10000000000000, (-52));
   (0x12800000000000, (-47));
   (0x14d00000000000, (-43));
   (0x1e5a0000000000, (-40));
   (0x101fd000000000, (-36));
   (0x1a9ae400000000, (-34));
   (0x11bc9800000000, (-31));
   (0x13a31600000000, (-29));
   (0x1268e4a0000000, (-27));
   (0x1da8fe90000000, (-26));
   (0x14c31898000000, (-24));
   (0x197b128c000000, (-23));
   (0x1b9aa96d000000, (-22));
   (0x1a8addfc800000, (-21));
   (0x16c02bfd000000, (-20));
   (0x117132ca800000, (-19));
   (0x17fba5d6700000, (-19));
   (0x1da04554300000, (-19));
   (0x10757bd9700000, (-18));
   (0x10757bd9700000, (-18));
   (0x1da04554300000, (-19));
   (0x17fba5d6700000, (-19));
   (0x117132ca800000, (-19));
   (0x16c02bfd000000, (-20));
   (0x1a8addfc800000, (-21));
   (0x1b9aa96d000000, (-22));
   (0x197b128c000000, (-23));
   (0x14c31898000000, (-24));
   (0x1da8fe90000000, (-26));
   (0x1268e4a0000000, (-27));
   (0x13a31600000000, (-29));
   (0x11bc9800000000, (-31));
   (0x1a9ae400000000, (-34));
   (0x101fd000000000, (-36));
   (0x1e5a0000000000, (-40));
   (0x14d00000000000, (-43));
   (0x12800000000000, (-47));
   (0x10000000000000, (-52));
   (0x10000000000000, (-52));
   (0x13000000000000, (-47));
   (0x15f80000000000, (-43));
   (0x107a0000000000, (-39));
   (0x12057000000000, (-36));
   (0x1ea2d800000000, (-34));
   (0x150ff480000000, (-31));
   (0x18123c00000000, (-29));
   (0x1751aa20000000, (-27));
   (0x136eb870000000, (-25));
   (0x1c2d583c000000, (-24));
   (0x11ee4f6c000000, (-22));
   (0x142c1959800000, (-21));
   (0x142c1959800000, (-20));
   (0x1202cd7da00000, (-19));
   (0x1cd148c9000000, (-19));
   (0x14b66c50780000, (-18));
   (0x1acdf595500000, (-18));
   (0x1f459e83880000, (-18));
   (0x10757bd9700000, (-17));
   (0x1f459e83880000, (-18));
   (0x1acdf595500000, (-18));
   (0x14b66c50780000, (-18));
   (0x1cd148c9000000, (-19));
   (0x1202cd7da00000, (-19));
   (0x142c1959800000, (-20));
   (0x142c1959800000, (-21));
   (0x11ee4f6c000000, (-22));
   (0x1c2d583c000000, (-24));
   (0x136eb870000000, (-25));
   (0x1751aa20000000, (-27));
   (0x18123c00000000, (-29));
   (0x150ff480000000, (-31));
   (0x1ea2d800000000, (-34));
   (0x12057000000000, (-36));
   (0x107a0000000000, (-39));
   (0x15f80000000000, (-43));
   (0x13000000000000, (-47));
   (0x10000000000000, (-52));
   (0x10000000000000, (-52));
   (0x13800000000000, (-47));
   (0x17280000000000, (-43));
   (0x11d98000000000, (-39));
   (0x1414b000000000, (-36));
   (0x11921a00000000, (-33));
   (0x18e44f80000000, (-31));
   (0x1d563920000000, (-29));
   (0x1d563920000000, (-27));
   (0x194322f8000000, (-25));
   (0x12f25a3a000000, (-23));
   (0x18f9a57b000000, (-22));
   (0x1d23410f800000, (-21));
   (0x1e422606400000, (-20));
   (0x1c18da2a600000, (-19));
   (0x176a0b23500000, (-18));
   (0x118f885a7c0000, (-17));
   (0x17c230f2e40000, (-17));
   (0x1d09ca0c6c0000, (-17));
   (0x100c258d9a0000, (-16));
   (0x100c258d9a0000, (-16));
   (0x1d09ca0c6c0000, (-17));
   (0x17c230f2e40000, (-17));
   (0x118f885a7c0000, (-17));
   (0x176a0b23500000, (-18));
   (0x1c18da2a600000, (-19));
   (0x1e422606400000, (-20));
   (0x1d23410f800000, (-21));
   (0x18f9a57b000000, (-22));
   (0x12f25a3a000000, (-23));
   (0x194322f8000000, (-25));
   (0x1d563920000000, (-27));
   (0x1d563920000000, (-29));
   (0x18e44f80000000, (-31));
   (0x11921a00000000, (-33));
   (0x1414b000000000, (-36));
   (0x11d98000000000, (-39));
   (0x17280000000000, (-43));
   (0x13800000000000, (-47));
   (0x10000000000000, (-52));
   (0x10000000000000, (-52));
   (0x14000000000000, (-47));
   (0x18600000000000, (-43));
   (0x134c0000000000, (-39));
   (0x164fe000000000, (-36));
   (0x1414b000000000, (-33));
   (0x1d48d600000000, (-31));
   (0x11c7a680000000, (-28));
   (0x1255e3b4000000, (-26));
   (0x104c58a0000000, (-24));
   (0x194322f8000000, (-23));
   (0x1139694c000000, (-21));
   (0x14d009e6800000, (-20));
   (0x1669e347000000, (-19));
   (0x159cf696c00000, (-18));
   (0x12bb3c1c400000, (-17));
   (0x1d448dec240000, (-17));
   (0x14a8dca6b00000, (-16));
   (0x1a65fd7fa80000, (-16));
   (0x1e910a93d00000, (-16));
   (0x100c258d9a0000, (-15));
   (0x1e910a93d00000, (-16));
   (0x1a65fd7fa80000, (-16));
   (0x14a8dca6b00000, (-16));
   (0x1d448dec240000, (-17));
   (0x12bb3c1c400000, (-17));
   (0x159cf696c00000, (-18));
   (0x1669e347000000, (-19));
   (0x14d009e6800000, (-20));
   (0x1139694c000000, (-21));
   (0x194322f8000000, (-23));
   (0x104c58a0000000, (-24));
   (0x1255e3b4000000, (-26));
   (0x11c7a680000000, (-28));
   (0x1d48d600000000, (-31));
   (0x1414b000000000, (-33));
   (0x164fe000000000, (-36));
   (0x134c0000000000, (-39));
   (0x18600000000000, (-43));
   (0x14000000000000, (-47));
   (0x10000000000000, (-52));
   (0x10000000000000, (-52));
   (0x14800000000000, (-47));
   (0x19a00000000000, (-43));
   (0x14d20000000000, (-39));
   (0x18b96000000000, (-36));
   (0x16deac00000000, (-33));
   (0x11270100000000, (-30));
   (0x1570c140000000, (-28));
   (0x16c7cd54000000, (-26));
   (0x14e1d18d000000, (-24));
   (0x10b4a7a4000000, (-22));
   (0x178a320a000000, (-21));
   (0x1d6cbe8c800000, (-20));
   (0x1068f41d200000, (-18));
   (0x1068f41d200000, (-17));
   (0x1d89b767a00000, (-17));
   (0x17ffe504320000, (-16));
   (0x11a591ce610000, (-15));
   (0x17876d132c0000, (-15));
   (0x1c7b8409bc0000, (-15));
   (0x1f54aad7820000, (-15));
   (0x1f54aad7820000, (-15));
   (0x1c7b8409bc0000, (-15));
   (0x17876d132c0000, (-15));
   (0x11a591ce610000, (-15));
   (0x17ffe504320000, (-16));
   (0x1d89b767a00000, (-17));
   (0x1068f41d200000, (-17));
   (0x1068f41d200000, (-18));
   (0x1d6cbe8c800000, (-20));
   (0x178a320a000000, (-21));
   (0x10b4a7a4000000, (-22));
   (0x14e1d18d000000, (-24));
   (0x16c7cd54000000, (-26));
   (0x1570c140000000, (-28));
   (0x11270100000000, (-30));
   (0x16deac00000000, (-33));
   (0x18b96000000000, (-36));
   (0x14d20000000000, (-39));
   (0x19a00000000000, (-43));
   (0x14800000000000, (-47));
   (0x10000000000000, (-52));
   (0x10000000000000, (-52));
   (0x15000000000000, (-47));
   (0x1ae80000000000, (-43));
   (0x166c0000000000, (-39));
   (0x1b53a000000000, (-36));
   (0x19f5d800000000, (-33));
   (0x1402d680000000, (-30));
   (0x19ba8180000000, (-28));
   (0x1c23fda4000000, (-26));
   (0x1a93c4e2000000, (-24));
   (0x15ed1c07400000, (-22));
   (0x1fe485dc000000, (-21));
   (0x1498ebc8c00000, (-19));
   (0x17c423c0400000, (-18));
   (0x189d6e2bb00000, (-17));
   (0x16f955c2600000, (-16));
   (0x1362605c010000, (-15));
   (0x1da584507a0000, (-15));
   (0x14967f70c68000, (-14));
   (0x1a01788e740000, (-14));
   (0x1de817709f0000, (-14));
   (0x1f54aad7820000, (-14));
   (0x1de817709f0000, (-14));
   (0x1a01788e740000, (-14));
   (0x14967f70c68000, (-14));
   (0x1da584507a0000, (-15));
   (0x1362605c010000, (-15));
   (0x16f955c2600000, (-16));
   (0x189d6e2bb00000, (-17));
   (0x17c423c0400000, (-18));
   (0x1498ebc8c00000, (-19));
   (0x1fe485dc000000, (-21));
   (0x15ed1c07400000, (-22));
   (0x1a93c4e2000000, (-24));
   (0x1c23fda4000000, (-26));
   (0x19ba8180000000, (-28));
   (0x1402d680000000, (-30));
   (0x19f5d800000000, (-33));
   (0x1b53a000000000, (-36));
   (0x166c0000000000, (-39));
   (0x1ae80000000000, (-43));
   (0x15000000000000, (-47));
   (0x10000000000000, (-52));
   (0x10000000000000, (-52));
   (0x15800000000000, (-47));
   (0x1c380000000000, (-43));
   (0x181a8000000000, (-39));
   (0x1e212000000000, (-36));
   (0x1d604c00000000, (-33));
   (0x17419180000000, (-30));
   (0x1ebb3720000000, (-28));
   (0x11494f02000000, (-25));
   (0x10ce6225800000, (-23));
   (0x1c920d3fc00000, (-22));
   (0x156d89efd00000, (-20));
   (0x1c920d3fc00000, (-19));
   (0x11084cd2500000, (-17));
   (0x123fc005e80000, (-16));
   (0x11a4066c1c0000, (-15));
   (0x1edf0b3d310000, (-15));
   (0x1883f2563d8000, (-14));
   (0x11b4a0cc81c000, (-13));
   (0x174bfbff9d4000, (-13));
   (0x1bf4c7ff898000, (-13));
   (0x1e9e6124108000, (-13));
   (0x1e9e6124108000, (-13));
   (0x1bf4c7ff898000, (-13));
   (0x174bfbff9d4000, (-13));
   (0x11b4a0cc81c000, (-13));
   (0x1883f2563d8000, (-14));
   (0x1edf0b3d310000, (-15));
   (0x11a4066c1c0000, (-15));
   (0x123fc005e80000, (-16));
   (0x11084cd2500000, (-17));
   (0x1c920d3fc00000, (-19));
   (0x156d89efd00000, (-20));
   (0x1c920d3fc00000, (-22));
   (0x10ce6225800000, (-23));
   (0x11494f02000000, (-25));
   (0x1ebb3720000000, (-28));
   (0x17419180000000, (-30));
   (0x1d604c00000000, (-33));
   (0x1e212000000000, (-36));
   (0x181a8000000000, (-39));
   (0x1c380000000000, (-43));
   (0x15800000000000, (-47));
   (0x10000000000000, (-52));
   (0x10000000000000, (-52));
   (0x16000000000000, (-47));
   (0x1d900000000000, (-43));
   (0x19de0000000000, (-39));
   (0x10923800000000, (-35));
   (0x10923800000000, (-32));
   (0x1aed9b00000000, (-30));
   (0x1245cdc0000000, (-27));
   (0x1520b5e6000000, (-25));
   (0x1520b5e6000000, (-23));
   (0x127c9f29400000, (-21));
   (0x1c920d3fc00000, (-20));
   (0x13a4691bd40000, (-18));
   (0x182cd022400000, (-17));
   (0x1ac3e66f100000, (-16));
   (0x1ac3e66f100000, (-15));
   (0x184188d4a68000, (-14));
   (0x13f9bbfa6b0000, (-13));
   (0x1df699f7a08000, (-13));
   (0x14804e660f8000, (-12));
   (0x19a061ff936000, (-12));
   (0x1d499491cd0000, (-12));
   (0x1e9e6124108000, (-12));
   (0x1d499491cd0000, (-12));
   (0x19a061ff936000, (-12));
   (0x14804e660f8000, (-12));
   (0x1df699f7a08000, (-13));
   (0x13f9bbfa6b0000, (-13));
   (0x184188d4a68000, (-14));
   (0x1ac3e66f100000, (-15));
   (0x1ac3e66f100000, (-16));
   (0x182cd022400000, (-17));
   (0x13a4691bd40000, (-18));
   (0x1c920d3fc00000, (-20));
   (0x127c9f29400000, (-21));
   (0x1520b5e6000000, (-23));
   (0x1520b5e6000000, (-25));
   (0x1245cdc0000000, (-27));
   (0x1aed9b00000000, (-30));
   (0x10923800000000, (-32));
   (0x10923800000000, (-35));
   (0x19de0000000000, (-39));
   (0x1d900000000000, (-43));
   (0x16000000000000, (-47));
   (0x10000000000000, (-52));
   (0x10000000000000, (-52));
   (0x16800000000000, (-47));
   (0x1ef00000000000, (-43));
   (0x1bb70000000000, (-39));
   (0x12301800000000, (-35));
   (0x12a47f00000000, (-32));
   (0x1f122900000000, (-30));
   (0x15a38120000000, (-27));
   (0x19b22956000000, (-25));
   (0x1a68e35f800000, (-23));
   (0x17c4cca2c00000, (-21));
   (0x12e82e6a300000, (-19));
   (0x1ac8ec6bc40000, (-18));
   (0x10ff8258150000, (-16));
   (0x136d2740180000, (-15));
   (0x1412ecd34c0000, (-14));
   (0x12d1be06174000, (-13));
   (0x100d40325f2000, (-12));
   (0x18f82af905c000, (-12));
   (0x11bdcdb0efe000, (-11));
   (0x17105832d17000, (-11));
   (0x1b74fb48b03000, (-11));
   (0x1df3fadaeec000, (-11));
   (0x1df3fadaeec000, (-11));
   (0x1b74fb48b03000, (-11));
   (0x17105832d17000, (-11));
   (0x11bdcdb0efe000, (-11));
   (0x18f82af905c000, (-12));
   (0x100d40325f2000, (-12));
   (0x12d1be06174000, (-13));
   (0x1412ecd34c0000, (-14));
   (0x136d2740180000, (-15));
   (0x10ff8258150000, (-16));
   (0x1ac8ec6bc40000, (-18));
   (0x12e82e6a300000, (-19));
   (0x17c4cca2c00000, (-21));
   (0x1a68e35f800000, (-23));
   (0x19b22956000000, (-25));
   (0x15a38120000000, (-27));
   (0x1f122900000000, (-30));
   (0x12a47f00000000, (-32));
   (0x12301800000000, (-35));
   (0x1bb70000000000, (-39));
   (0x1ef00000000000, (-43));
   (0x16800000000000, (-47));
   (0x10000000000000, (-52));
   (0x10000000000000, (-52));
   (0x17000000000000, (-47));
   (0x102c0000000000, (-42));
   (0x1da60000000000, (-39));
   (0x13eb8800000000, (-35));
   (0x14ea8200000000, (-32));
   (0x11dda460000000, (-29));
   (0x1985c640000000, (-27));
   (0x1f1b099e000000, (-25));
   (0x106ab6da800000, (-22));
   (0x1e5f057aa00000, (-21));
   (0x18d96192e00000, (-19));
   (0x121e81d06e0000, (-17));
   (0x17b1bd73060000, (-16));
   (0x1bece86c228000, (-15));
   (0x1dc98073580000, (-14));
   (0x1cdb346fbd4000, (-13));
   (0x19761f356ac000, (-12));
   (0x1482b595b27000, (-11));
   (0x1e39e32d72c000, (-11));
   (0x146712f1e0a800, (-10));
   (0x1942a9bdc0d000, (-10));
   (0x1cb47b11cf7800, (-10));
   (0x1df3fadaeec000, (-10));
   (0x1cb47b11cf7800, (-10));
   (0x1942a9bdc0d000, (-10));
   (0x146712f1e0a800, (-10));
   (0x1e39e32d72c000, (-11));
   (0x1482b595b27000, (-11));
   (0x19761f356ac000, (-12));
   (0x1cdb346fbd4000, (-13));
   (0x1dc98073580000, (-14));
   (0x1bece86c228000, (-15));
   (0x17b1bd73060000, (-16));
   (0x121e81d06e0000, (-17));
   (0x18d96192e00000, (-19));
   (0x1e5f057aa00000, (-21));
   (0x106ab6da800000, (-22));
   (0x1f1b099e000000, (-25));
   (0x1985c640000000, (-27));
   (0x11dda460000000, (-29));
   (0x14ea8200000000, (-32));
   (0x13eb8800000000, (-35));
   (0x1da60000000000, (-39));
   (0x102c0000000000, (-42));
   (0x17000000000000, (-47));
   (0x10000000000000, (-52));
   (0x10000000000000, (-52));
   (0x17800000000000, (-47));
   (0x10e40000000000, (-42));
   (0x1fab8000000000, (-39));
   (0x15c5e800000000, (-35));
   (0x1767f300000000, (-32));
   (0x147af4a0000000, (-29));
   (0x1dfd2f58000000, (-27));
   (0x12be3d97000000, (-24));
   (0x144e180e400000, (-22));
   (0x134a3073f00000, (-20));
   (0x10389178c40000, (-18));
   (0x1854da35260000, (-17));
   (0x10607f2d9e8000, (-15));
   (0x13e2e392d2c000, (-14));
   (0x15dffa54b4a000, (-13));
   (0x15dffa54b4a000, (-12));
   (0x13f1dcb6a4b000, (-11));
   (0x109ee29833e800, (-10));
   (0x195e4c61929800, (-10));
   (0x11c202444d0400, (-9));
   (0x16d4de57d0bc00, (-9));
   (0x1afb9267c82400, (-9));
   (0x1d543af65f1c00, (-9));
   (0x1d543af65f1c00, (-9));
   (0x1afb9267c82400, (-9));
   (0x16d4de57d0bc00, (-9));
   (0x11c202444d0400, (-9));
   (0x195e4c61929800, (-10));
   (0x109ee29833e800, (-10));
   (0x13f1dcb6a4b000, (-11));
   (0x15dffa54b4a000, (-12));
   (0x15dffa54b4a000, (-13));
   (0x13e2e392d2c000, (-14));
   (0x10607f2d9e8000, (-15));
   (0x1854da35260000, (-17));
   (0x10389178c40000, (-18));
   (0x134a3073f00000, (-20));
   (0x144e180e400000, (-22));
   (0x12be3d97000000, (-24));
   (0x1dfd2f58000000, (-27));
   (0x147af4a0000000, (-29));
   (0x1767f300000000, (-32));
   (0x15c5e800000000, (-35));
   (0x1fab8000000000, (-39));
   (0x10e40000000000, (-42));
   (0x17800000000000, (-47));
   (0x10000000000000, (-52));
   (0x10000000000000, (-52));
   (0x18000000000000, (-47));
   (0x11a00000000000, (-42));
   (0x10e40000000000, (-38));
   (0x17c0a000000000, (-35));
   (0x1a20b000000000, (-32));
   (0x1767f300000000, (-29));
   (0x118df640000000, (-26));
   (0x167de382000000, (-24));
   (0x18fda774000000, (-22));
   (0x185db677800000, (-20));
   (0x150b1d95c00000, (-18));
   (0x10389178c40000, (-16));
   (0x1675b5bae80000, (-15));
   (0x1c132329a20000, (-14));
   (0x1fd16c1e1e0000, (-13));
   (0x1067fbbf877800, (-11));
   (0x1ee1d9e0ff0000, (-11));
   (0x1a97d0f3864000, (-10));
   (0x14fe977ce34000, (-9));
   (0x1e712875165000, (-9));
   (0x144b704e0ee000, (-8));
   (0x18e8385fcc7000, (-8));
   (0x1c27e6af13a000, (-8));
   (0x1d543af65f1c00, (-8));
   (0x1c27e6af13a000, (-8));
   (0x18e8385fcc7000, (-8));
   (0x144b704e0ee000, (-8));
   (0x1e712875165000, (-9));
   (0x14fe977ce34000, (-9));
   (0x1a97d0f3864000, (-10));
   (0x1ee1d9e0ff0000, (-11));
   (0x1067fbbf877800, (-11));
   (0x1fd16c1e1e0000, (-13));
   (0x1c132329a20000, (-14));
   (0x1675b5bae80000, (-15));
   (0x10389178c40000, (-16));
   (0x150b1d95c00000, (-18));
   (0x185db677800000, (-20));
   (0x18fda774000000, (-22));
   (0x167de382000000, (-24));
   (0x118df640000000, (-26));
   (0x1767f300000000, (-29));
   (0x1a20b000000000, (-32));
   (0x17c0a000000000, (-35));
   (0x10e40000000000, (-38));
   (0x11a00000000000, (-42));
   (0x18000000000000, (-47));
   (0x10000000000000, (-52));
   (0x10000000000000, (-52));
   (0x18800000000000, (-47));
   (0x12600000000000, (-42));
   (0x11fe0000000000, (-38));
   (0x19dd2000000000, (-35));
   (0x1d18c400000000, (-32));
   (0x1aac0900000000, (-29));
   (0x147af4a0000000, (-26));
   (0x1ae16112000000, (-24));
   (0x1e9d2054800000, (-22));
   (0x1e9d2054800000, (-20));
   (0x1b228b33a00000, (-18));
   (0x157b58de340000, (-16));
   (0x1e91fe774a0000, (-15));
   (0x13a6ff038b0000, (-13));
   (0x16ed7ed9778000, (-12));
   (0x185c56c70ef800, (-11));
   (0x17a4ead0433c00, (-10));
   (0x15045ef202e000, (-9));
   (0x11253ffb533000, (-8));
   (0x19b7dff8fcc800, (-8));
   (0x11c202444d0400, (-7));
   (0x1699d456eda800, (-7));
   (0x1a880f87700800, (-7));
   (0x1cbe10d2b95e00, (-7));
   (0x1cbe10d2b95e00, (-7));
   (0x1a880f87700800, (-7));
   (0x1699d456eda800, (-7));
   (0x11c202444d0400, (-7));
   (0x19b7dff8fcc800, (-8));
   (0x11253ffb533000, (-8));
   (0x15045ef202e000, (-9));
   (0x17a4ead0433c00, (-10));
   (0x185c56c70ef800, (-11));
   (0x16ed7ed9778000, (-12));
   (0x13a6ff038b0000, (-13));
   (0x1e91fe774a0000, (-15));
   (0x157b58de340000, (-16));
   (0x1b228b33a00000, (-18));
   (0x1e9d2054800000, (-20));
   (0x1e9d2054800000, (-22));
   (0x1ae16112000000, (-24));
   (0x147af4a0000000, (-26));
   (0x1aac0900000000, (-29));
   (0x1d18c400000000, (-32));
   (0x19dd2000000000, (-35));
   (0x11fe0000000000, (-38));
   (0x12600000000000, (-42));
   (0x18800000000000, (-47));
   (0x10000000000000, (-52));
   (0x10000000000000, (-52));
   (0x19000000000000, (-47));
   (0x13240000000000, (-42));
   (0x13240000000000, (-38));
   (0x1c1ce000000000, (-35));
   (0x102a3400000000, (-31));
   (0x1e4f2180000000, (-29));
   (0x17d075c0000000, (-26));
   (0x10000f1d000000, (-23));
   (0x12aabc4c800000, (-21));
   (0x13223434d00000, (-19));
   (0x1164e9a4600000, (-17));
   (0x1c43fbab1c0000, (-16));
   (0x14a7d573320000, (-14));
   (0x1b4b7ea15d8000, (-13));
   (0x10607f2d9e8000, (-11));
   (0x11e98b19e55c00, (-10));
   (0x11e98b19e55c00, (-9));
   (0x106b6a2d123f00, (-8));
   (0x1ba76f7454a000, (-8));
   (0x156e8ffa27fc00, (-7));
   (0x1e9df240cb6800, (-7));
   (0x142deb4d9d5600, (-6));
   (0x1890f1ef2ed800, (-6));
   (0x1ba3102d14b300, (-6));
   (0x1cbe10d2b95e00, (-6));
   (0x1ba3102d14b300, (-6));
   (0x1890f1ef2ed800, (-6));
   (0x142deb4d9d5600, (-6));
   (0x1e9df240cb6800, (-7));
   (0x156e8ffa27fc00, (-7));
   (0x1ba76f7454a000, (-8));
   (0x106b6a2d123f00, (-8));
   (0x11e98b19e55c00, (-9));
   (0x11e98b19e55c00, (-10));
   (0x10607f2d9e8000, (-11));
   (0x1b4b7ea15d8000, (-13));
   (0x14a7d573320000, (-14));
   (0x1c43fbab1c0000, (-16));
   (0x1164e9a4600000, (-17));
   (0x13223434d00000, (-19));
   (0x12aabc4c800000, (-21));
   (0x10000f1d000000, (-23));
   (0x17d075c0000000, (-26));
   (0x1e4f2180000000, (-29));
   (0x102a3400000000, (-31));
   (0x1c1ce000000000, (-35));
   (0x13240000000000, (-38));
   (0x13240000000000, (-42));
   (0x19000000000000, (-47));
   (0x10000000000000, (-52));
   (0x10000000000000, (-52));
   (0x19800000000000, (-47));
   (0x13ec0000000000, (-42));
   (0x14564000000000, (-38));
   (0x1e816000000000, (-35));
   (0x11ec0200000000, (-31));
   (0x112cd740000000, (-28));
   (0x1b9a59f0000000, (-26));
   (0x12fa1dd5000000, (-23));
   (0x16aac013c00000, (-21));
   (0x17cce347f00000, (-19));
   (0x162d76b1940000, (-17));
   (0x127b383ea60000, (-15));
   (0x1bb8d45df90000, (-14));
   (0x12cfb4ad7b4000, (-12));
   (0x17335ed5f5e000, (-11));
   (0x1a19cab0b49c00, (-10));
   (0x1ade50a6d80a00, (-9));
   (0x19602fba04ed00, (-8));
   (0x16096cd0b36f80, (-7));
   (0x11a123da292600, (-6));
   (0x1a06411d79b200, (-6));
   (0x11be7237018500, (-5));
   (0x165f6e9e661700, (-5));
   (0x1a1a010e21c580, (-5));
   (0x1c30907fe70880, (-5));
   (0x1c30907fe70880, (-5));
   (0x1a1a010e21c580, (-5));
   (0x165f6e9e661700, (-5));
   (0x11be7237018500, (-5));
   (0x1a06411d79b200, (-6));
   (0x11a123da292600, (-6));
   (0x16096cd0b36f80, (-7));
   (0x19602fba04ed00, (-8));
   (0x1ade50a6d80a00, (-9));
   (0x1a19cab0b49c00, (-10));
   (0x17335ed5f5e000, (-11));
   (0x12cfb4ad7b4000, (-12));
   (0x1bb8d45df90000, (-14));
   (0x127b383ea60000, (-15));
   (0x162d76b1940000, (-17));
   (0x17cce347f00000, (-19));
   (0x16aac013c00000, (-21));
   (0x12fa1dd5000000, (-23));
   (0x1b9a59f0000000, (-26));
   (0x112cd740000000, (-28));
   (0x11ec0200000000, (-31));
   (0x1e816000000000, (-35));
   (0x14564000000000, (-38));
   (0x13ec0000000000, (-42));
   (0x19800000000000, (-47));
   (0x10000000000000, (-52));
   (0x10000000000000, (-52));
   (0x1a000000000000, (-47));
   (0x14b80000000000, (-42));
   (0x15950000000000, (-38));
   (0x10861400000000, (-34));
   (0x13d41800000000, (-31));
   (0x136a5780000000, (-28));
   (0x1fe58fc0000000, (-26));
   (0x166d6913000000, (-23));
   (0x1b694789000000, (-21));
   (0x1d77934ce00000, (-19));
   (0x1c20af83900000, (-17));
   (0x180695eb0b0000, (-15));
   (0x127b383ea60000, (-13));
   (0x19bde9c4f98000, (-12));
   (0x104d9c9659c000, (-10));
   (0x12d9bd0dd7c600, (-9));
   (0x13f59aff992c00, (-8));
   (0x1367ac06b87900, (-7));
   (0x115cc256daf300, (-6));
   (0x1ca5da4282ddc0, (-6));
   (0x15d3b27bd16c00, (-5));
   (0x1ec192c5be5e00, (-5));
   (0x140ef06ab3ce00, (-4));
   (0x183cb7d643ee40, (-4));
   (0x1b2548c7046700, (-4));
   (0x1c30907fe70880, (-4));
   (0x1b2548c7046700, (-4));
   (0x183cb7d643ee40, (-4));
   (0x140ef06ab3ce00, (-4));
   (0x1ec192c5be5e00, (-5));
   (0x15d3b27bd16c00, (-5));
   (0x1ca5da4282ddc0, (-6));
   (0x115cc256daf300, (-6));
   (0x1367ac06b87900, (-7));
   (0x13f59aff992c00, (-8));
   (0x12d9bd0dd7c600, (-9));
   (0x104d9c9659c000, (-10));
   (0x19bde9c4f98000, (-12));
   (0x127b383ea60000, (-13));
   (0x180695eb0b0000, (-15));
   (0x1c20af83900000, (-17));
   (0x1d77934ce00000, (-19));
   (0x1b694789000000, (-21));
   (0x166d6913000000, (-23));
   (0x1fe58fc0000000, (-26));
   (0x136a5780000000, (-28));
   (0x13d41800000000, (-31));
   (0x10861400000000, (-34));
   (0x15950000000000, (-38));
   (0x14b80000000000, (-42));
   (0x1a000000000000, (-47));
   (0x10000000000000, (-52));
   (0x10000000000000, (-52));
   (0x1a800000000000, (-47));
   (0x15880000000000, (-42));
   (0x16e08000000000, (-38));
   (0x11df6400000000, (-34));
   (0x15e4da80000000, (-31));
   (0x15e4da80000000, (-28));
   (0x126012d0000000, (-25));
   (0x1a6a1b0b000000, (-23));
   (0x108250e6e00000, (-20));
   (0x1228f297900000, (-18));
   (0x11bf4a2b640000, (-16));
   (0x1f0ec1cbef0000, (-15));
   (0x187cddb968c000, (-13));
   (0x117dc2f2264000, (-11));
   (0x16bd1707982000, (-10));
   (0x1b008b5904a600, (-9));
   (0x1d627986850f00, (-8));
   (0x1d627986850f00, (-7));
   (0x1b10985a372f80, (-6));
   (0x17014e4caee860, (-5));
   (0x12134fce896d70, (-4));
   (0x1a4aa2a0c7e500, (-4));
   (0x11b7dce6c97e80, (-3));
   (0x1625d4207bde20, (-3));
   (0x19b1004ea42aa0, (-3));
   (0x1baaeca375b7c0, (-3));
   (0x1baaeca375b7c0, (-3));
   (0x19b1004ea42aa0, (-3));
   (0x1625d4207bde20, (-3));
   (0x11b7dce6c97e80, (-3));
   (0x1a4aa2a0c7e500, (-4));
   (0x12134fce896d70, (-4));
   (0x17014e4caee860, (-5));
   (0x1b10985a372f80, (-6));
   (0x1d627986850f00, (-7));
   (0x1d627986850f00, (-8));
   (0x1b008b5904a600, (-9));
   (0x16bd1707982000, (-10));
   (0x117dc2f2264000, (-11));
   (0x187cddb968c000, (-13));
   (0x1f0ec1cbef0000, (-15));
   (0x11bf4a2b640000, (-16));
   (0x1228f297900000, (-18));
   (0x108250e6e00000, (-20));
   (0x1a6a1b0b000000, (-23));
   (0x126012d0000000, (-25));
   (0x15e4da80000000, (-28));
   (0x15e4da80000000, (-31));
   (0x11df6400000000, (-34));
   (0x16e08000000000, (-38));
   (0x15880000000000, (-42));
   (0x1a800000000000, (-47));
   (0x10000000000000, (-52));
   (0x10000000000000, (-52));
   (0x1b000000000000, (-47));
   (0x165c0000000000, (-42));
   (0x18390000000000, (-38));
   (0x134d6c00000000, (-34));
   (0x1820c700000000, (-31));
   (0x18a175d0000000, (-28));
   (0x151cae20000000, (-25));
   (0x1f021fbf000000, (-23));
   (0x13cf9448400000, (-20));
   (0x164986d1480000, (-18));
   (0x164986d1480000, (-16));
   (0x13f73370d08000, (-14));
   (0x10204716324000, (-12));
   (0x179cfa60807000, (-11));
   (0x1f7bf880ab4000, (-10));
   (0x132f8b6e685b00, (-8));
   (0x15715f9983b100, (-7));
   (0x1609db24e3cb40, (-6));
   (0x14e0ea8ebcdb80, (-5));
   (0x1244cd3ce54010, (-4));
   (0x1d93f6f4e0e1a0, (-4));
   (0x162ef937a8a938, (-3));
   (0x1edd2e372d7100, (-3));
   (0x13eed883a2ae50, (-2));
   (0x17eb6a37900460, (-2));
   (0x1aadf6790cf130, (-2));
   (0x1baaeca375b7c0, (-2));
   (0x1aadf6790cf130, (-2));
   (0x17eb6a37900460, (-2));
   (0x13eed883a2ae50, (-2));
   (0x1edd2e372d7100, (-3));
   (0x162ef937a8a938, (-3));
   (0x1d93f6f4e0e1a0, (-4));
   (0x1244cd3ce54010, (-4));
   (0x14e0ea8ebcdb80, (-5));
   (0x1609db24e3cb40, (-6));
   (0x15715f9983b100, (-7));
   (0x132f8b6e685b00, (-8));
   (0x1f7bf880ab4000, (-10));
   (0x179cfa60807000, (-11));
   (0x10204716324000, (-12));
   (0x13f73370d08000, (-14));
   (0x164986d1480000, (-16));
   (0x164986d1480000, (-18));
   (0x13cf9448400000, (-20));
   (0x1f021fbf000000, (-23));
   (0x151cae20000000, (-25));
   (0x18a175d0000000, (-28));
   (0x1820c700000000, (-31));
   (0x134d6c00000000, (-34));
   (0x18390000000000, (-38));
   (0x165c0000000000, (-42));
   (0x1b000000000000, (-47));
   (0x10000000000000, (-52));
   (0x10000000000000, (-52));
   (0x1b800000000000, (-47));
   (0x17340000000000, (-42));
   (0x199ec000000000, (-38));
   (0x14d0fc00000000, (-34));
   (0x1a8a7480000000, (-31));
   (0x1ba58eb0000000, (-28));
   (0x1830dcda000000, (-25));
   (0x1224a5a3800000, (-22));
   (0x17afd840200000, (-20));
   (0x1b3d6be3580000, (-18));
   (0x1bdbe8859a0000, (-16));
   (0x19899525228000, (-14));
   (0x151e13f2666000, (-12));
   (0x1fad1deb999000, (-11));
   (0x15a53ad875bc00, (-9));
   (0x1b0e898e932b00, (-8));
   (0x1f092550b7de80, (-7));
   (0x10614578d2d1e0, (-5));
   (0x1fe5d8212ec120, (-5));
   (0x1cb5428443add0, (-4));
   (0x17ec6218e310d8, (-3));
   (0x127c7a590c8d04, (-2));
   (0x1a8613b76b0d1c, (-2));
   (0x11aeb7cf9cb368, (-1));
   (0x15ed215d995958, (-1));
   (0x194cb0584e7ac8, (-1));
   (0x1b2c718e415478, (-1));
   (0x1b2c718e415478, (-1));
   (0x194cb0584e7ac8, (-1));
   (0x15ed215d995958, (-1));
   (0x11aeb7cf9cb368, (-1));
   (0x1a8613b76b0d1c, (-2));
   (0x127c7a590c8d04, (-2));
   (0x17ec6218e310d8, (-3));
   (0x1cb5428443add0, (-4));
   (0x1fe5d8212ec120, (-5));
   (0x10614578d2d1e0, (-5));
   (0x1f092550b7de80, (-7));
   (0x1b0e898e932b00, (-8));
   (0x15a53ad875bc00, (-9));
   (0x1fad1deb999000, (-11));
   (0x151e13f2666000, (-12));
   (0x19899525228000, (-14));
   (0x1bdbe8859a0000, (-16));
   (0x1b3d6be3580000, (-18));
   (0x17afd840200000, (-20));
   (0x1224a5a3800000, (-22));
   (0x1830dcda000000, (-25));
   (0x1ba58eb0000000, (-28));
   (0x1a8a7480000000, (-31));
   (0x14d0fc00000000, (-34));
   (0x199ec000000000, (-38));
   (0x17340000000000, (-42));
   (0x1b800000000000, (-47));
   (0x10000000000000, (-52));
   (0x10000000000000, (-52));
   (0x1c000000000000, (-47));
   (0x18100000000000, (-42));
   (0x1b120000000000, (-38));
   (0x166ae800000000, (-34));
   (0x1d249400000000, (-31));
   (0x1ef6dd40000000, (-28));
   (0x1ba58eb0000000, (-25));
   (0x152ac13ec00000, (-22));
   (0x1c3901a9000000, (-20));
   (0x1094b0f9b00000, (-17));
   (0x1155a1bf380000, (-15));
   (0x104047a3448000, (-13));
   (0x1b80793baf0000, (-12));
   (0x151e13f2666000, (-10));
   (0x1d9082535c2000, (-9));
   (0x12f0937d670480, (-7));
   (0x1648350c00ba00, (-6));
   (0x18238ecd00c980, (-5));
   (0x18238ecd00c980, (-4));
   (0x1654174a6d8730, (-3));
   (0x132381ad8273e0, (-2));
   (0x1e72ab657e1570, (-2));
   (0x168147083bcd10, (-1));
   (0x1ef1c1ab5239f6, (-1));
   (0x13cdec969b0660, 0);
   (0x179ce8daf3ea10, 0);
   (0x1a3c90f347e7a0, 0);
   (0x1b2c718e415478, 0);
   (0x1a3c90f347e7a0, 0);
   (0x179ce8daf3ea10, 0);
   (0x13cdec969b0660, 0);
   (0x1ef1c1ab5239f6, (-1));
   (0x168147083bcd10, (-1));
   (0x1e72ab657e1570, (-2));
   (0x132381ad8273e0, (-2));
   (0x1654174a6d8730, (-3));
   (0x18238ecd00c980, (-4));
   (0x18238ecd00c980, (-5));
   (0x1648350c00ba00, (-6));
   (0x12f0937d670480, (-7));
   (0x1d9082535c2000, (-9));
   (0x151e13f2666000, (-10));
   (0x1b80793baf0000, (-12));
   (0x104047a3448000, (-13));
   (0x1155a1bf380000, (-15));
   (0x1094b0f9b00000, (-17));
   (0x1c3901a9000000, (-20));
   (0x152ac13ec00000, (-22));
   (0x1ba58eb0000000, (-25));
   (0x1ef6dd40000000, (-28));
   (0x1d249400000000, (-31));
   (0x166ae800000000, (-34));
   (0x1b120000000000, (-38));
   (0x18100000000000, (-42));
   (0x1c000000000000, (-47));
   (0x10000000000000, (-52));
   (0x10000000000000, (-52));
   (0x1c800000000000, (-47));
   (0x18f00000000000, (-42));
   (0x1c930000000000, (-38));
   (0x181c0800000000, (-34));
   (0x1ff1f100000000, (-31));
   (0x114db7e0000000, (-27));
   (0x1f846a58000000, (-25));
   (0x189f7314c00000, (-22));
   (0x10c1d8fc580000, (-19));
   (0x141bd12ed00000, (-17));
   (0x157acdfda40000, (-15));
   (0x1495b013128000, (-13));
   (0x11d04e86a8a000, (-11));
   (0x1bfe3241522000, (-10));
   (0x140fc62647a800, (-8));
   (0x1a54b4123e0c80, (-7));
   (0x1fc07ecab43c40, (-6));
   (0x11a3d4a9809340, (-4));
   (0x121aab19c09720, (-3));
   (0x1132ef5876f5f8, (-2));
   (0x1e4d8d52b93778, (-2));
   (0x18cb16898044a8, (-1));
   (0x12dd4e5d7d6be4, 0);
   (0x1ab98459c70383, 0);
   (0x11a366b62211ae, 1);
   (0x15b56ab8c77838, 1);
   (0x18ecbce71de8d8, 1);
   (0x1ab48140c49e0c, 1);
   (0x1ab48140c49e0c, 1);
   (0x18ecbce71de8d8, 1);
   (0x15b56ab8c77838, 1);
   (0x11a366b62211ae, 1);
   (0x1ab98459c70383, 0);
   (0x12dd4e5d7d6be4, 0);
   (0x18cb16898044a8, (-1));
   (0x1e4d8d52b93778, (-2));
   (0x1132ef5876f5f8, (-2));
   (0x121aab19c09720, (-3));
   (0x11a3d4a9809340, (-4));
   (0x1fc07ecab43c40, (-6));
   (0x1a54b4123e0c80, (-7));
   (0x140fc62647a800, (-8));
   (0x1bfe3241522000, (-10));
   (0x11d04e86a8a000, (-11));
   (0x1495b013128000, (-13));
   (0x157acdfda40000, (-15));
   (0x141bd12ed00000, (-17));
   (0x10c1d8fc580000, (-19));
   (0x189f7314c00000, (-22));
   (0x1f846a58000000, (-25));
   (0x114db7e0000000, (-27));
   (0x1ff1f100000000, (-31));
   (0x181c0800000000, (-34));
   (0x1c930000000000, (-38));
   (0x18f00000000000, (-42));
   (0x1c800000000000, (-47));
   (0x10000000000000, (-52));
   (0x10000000000000, (-52));
   (0x1d000000000000, (-47));
   (0x19d40000000000, (-42));
   (0x1e220000000000, (-38));
   (0x19e53800000000, (-34));
   (0x117ab900000000, (-30));
   (0x134cd6f0000000, (-27));
   (0x11ebec28000000, (-24));
   (0x1c90005fc00000, (-22));
   (0x13d5c75ef00000, (-19));
   (0x184c476de60000, (-17));
   (0x1a81c249580000, (-15));
   (0x19f463927b8000, (-13));
   (0x16f5ba8b6d4000, (-11));
   (0x12732cc2533800, (-9));
   (0x1b0f52b69c3000, (-8));
   (0x122e4b92b0f040, (-6));
   (0x16756c69e9a140, (-5));
   (0x1993f45c2da250, (-4));
   (0x1aec956e80e0c0, (-3));
   (0x1a4044e5574188, (-2));
   (0x17c03e559816b8, (-1));
   (0x13f8ee996e7032, 0);
   (0x1f42d9a23d8e38, 0);
   (0x16cb695ba237b4, 1);
   (0x1f0028e305936f, 1);
   (0x13ac68b774c4f3, 2);
   (0x175113cff2b088, 2);
   (0x19d09f13f14372, 2);
   (0x1ab48140c49e0c, 2);
   (0x19d09f13f14372, 2);
   (0x175113cff2b088, 2);
   (0x13ac68b774c4f3, 2);
   (0x1f0028e305936f, 1);
   (0x16cb695ba237b4, 1);
   (0x1f42d9a23d8e38, 0);
   (0x13f8ee996e7032, 0);
   (0x17c03e559816b8, (-1));
   (0x1a4044e5574188, (-2));
   (0x1aec956e80e0c0, (-3));
   (0x1993f45c2da250, (-4));
   (0x16756c69e9a140, (-5));
   (0x122e4b92b0f040, (-6));
   (0x1b0f52b69c3000, (-8));
   (0x12732cc2533800, (-9));
   (0x16f5ba8b6d4000, (-11));
   (0x19f463927b8000, (-13));
   (0x1a81c249580000, (-15));
   (0x184c476de60000, (-17));
   (0x13d5c75ef00000, (-19));
   (0x1c90005fc00000, (-22));
   (0x11ebec28000000, (-24));
   (0x134cd6f0000000, (-27));
   (0x117ab900000000, (-30));
   (0x19e53800000000, (-34));
   (0x1e220000000000, (-38));
   (0x19d40000000000, (-42));
   (0x1d000000000000, (-47));
   (0x10000000000000, (-52));
   (0x10000000000000, (-52));
   (0x1d800000000000, (-47));
   (0x1abc0000000000, (-42));
   (0x1fbf4000000000, (-38));
   (0x1bc75800000000, (-34));
   (0x13190c80000000, (-30));
   (0x157c2e10000000, (-27));
   (0x14558706000000, (-24));
   (0x10857db4e00000, (-21));
   (0x1767c76ae80000, (-19));
   (0x1d41b945a20000, (-17));
   (0x104a6a1268c000, (-14));
   (0x104a6a1268c000, (-12));
   (0x1d72d3700c2000, (-11));
   (0x18309b652e8800, (-9));
   (0x1224748be2e600, (-7));
   (0x18f2204057fc40, (-6));
   (0x1f8c9233421960, (-5));
   (0x12675548913978, (-3));
   (0x13db47ce4bd8f4, (-2));
   (0x13db47ce4bd8f4, (-1));
   (0x1270306421dbbe, 0);
   (0x1fd90dc43a7b8e, 0);
   (0x199de41dd5ff35, 1);
   (0x13366b16607f68, 2);
   (0x1ae5c91f53e591, 2);
   (0x11963e947bc755, 3);
   (0x157ebe43b3babd, 3);
   (0x1890d971f1f9fd, 3);
   (0x1a42902a5af0bf, 3);
   (0x1a42902a5af0bf, 3);
   (0x1890d971f1f9fd, 3);
   (0x157ebe43b3babd, 3);
   (0x11963e947bc755, 3);
   (0x1ae5c91f53e591, 2);
   (0x13366b16607f68, 2);
   (0x199de41dd5ff35, 1);
   (0x1fd90dc43a7b8e, 0);
   (0x1270306421dbbe, 0);
   (0x13db47ce4bd8f4, (-1));
   (0x13db47ce4bd8f4, (-2));
   (0x12675548913978, (-3));
   (0x1f8c9233421960, (-5));
   (0x18f2204057fc40, (-6));
   (0x1224748be2e600, (-7));
   (0x18309b652e8800, (-9));
   (0x1d72d3700c2000, (-11));
   (0x104a6a1268c000, (-12));
   (0x104a6a1268c000, (-14));
   (0x1d41b945a20000, (-17));
   (0x1767c76ae80000, (-19));
   (0x10857db4e00000, (-21));
   (0x14558706000000, (-24));
   (0x157c2e10000000, (-27));
   (0x13190c80000000, (-30));
   (0x1bc75800000000, (-34));
   (0x1fbf4000000000, (-38));
   (0x1abc0000000000, (-42));
   (0x1d800000000000, (-47));
   (0x10000000000000, (-52));
   (0x10000000000000, (-52));
   (0x1e000000000000, (-47));
   (0x1ba80000000000, (-42));
   (0x10b58000000000, (-37));
   (0x1dc34c00000000, (-34));
   (0x14d58200000000, (-30));
   (0x17df4fa0000000, (-27));
   (0x17050cc8000000, (-24));
   (0x13102e95a00000, (-21));
   (0x1b8926d8200000, (-19));
   (0x118dd5902e0000, (-16));
   (0x13f2a13b1d0000, (-14));
   (0x145d049702f000, (-12));
   (0x12cc043ca04000, (-10));
   (0x1f8d5041319000, (-9));
   (0x18309b652e8800, (-7));
   (0x11022d4324b7a0, (-5));
   (0x1602d129b70bc0, (-4));
   (0x1a4a79d561bfd0, (-3));
   (0x1d0ef2729475b0, (-2));
   (0x1dc8ebb571c56e, (-1));
   (0x1c5dd44b47c838, 0);
   (0x19249f142e2ba6, 1);
   (0x14c5357ff99e7e, 2);
   (0x1002ae92a5bf81, 3);
   (0x170e1a1ada327c, 3);
   (0x1f09232425ba1e, 3);
   (0x138a7e6c17c109, 4);
   (0x1707cbdad2da5d, 4);
   (0x1969b4ce26755e, 4);
   (0x1a42902a5af0bf, 4);
   (0x1969b4ce26755e, 4);
   (0x1707cbdad2da5d, 4);
   (0x138a7e6c17c109, 4);
   (0x1f09232425ba1e, 3);
   (0x170e1a1ada327c, 3);
   (0x1002ae92a5bf81, 3);
   (0x14c5357ff99e7e, 2);
   (0x19249f142e2ba6, 1);
   (0x1c5dd44b47c838, 0);
   (0x1dc8ebb571c56e, (-1));
   (0x1d0ef2729475b0, (-2));
   (0x1a4a79d561bfd0, (-3));
   (0x1602d129b70bc0, (-4));
   (0x11022d4324b7a0, (-5));
   (0x18309b652e8800, (-7));
   (0x1f8d5041319000, (-9));
   (0x12cc043ca04000, (-10));
   (0x145d049702f000, (-12));
   (0x13f2a13b1d0000, (-14));
   (0x118dd5902e0000, (-16));
   (0x1b8926d8200000, (-19));
   (0x13102e95a00000, (-21));
   (0x17050cc8000000, (-24));
   (0x17df4fa0000000, (-27));
   (0x14d58200000000, (-30));
   (0x1dc34c00000000, (-34));
   (0x10b58000000000, (-37));
   (0x1ba80000000000, (-42));
   (0x1e000000000000, (-47));
   (0x10000000000000, (-52));
   (0x10000000000000, (-52));
   (0x1e800000000000, (-47));
   (0x1c980000000000, (-42));
   (0x1192c000000000, (-37));
   (0x1fd9fc00000000, (-34));
   (0x16b1b6c0000000, (-30));
   (0x1a79ffe0000000, (-27));
   (0x1a00f6bc000000, (-24));
   (0x15f0d02ea00000, (-21));
   (0x1026993ec40000, (-18));
   (0x14fefa6b320000, (-16));
   (0x1856169f288000, (-14));
   (0x1959ace5ca3000, (-12));
   (0x17e3456260fc00, (-10));
   (0x1479a92fc0d800, (-8));
   (0x1009f7babd7600, (-6));
   (0x170e541c7059a0, (-5));
   (0x1e83e7cb496790, (-4));
   (0x12a5f1351ea2d8, (-2));
   (0x151a17aea2aacc, (-1));
   (0x162832775e0023, 0);
   (0x15a12513005578, 1);
   (0x13a9c49ce907e1, 2);
   (0x10abc285085a28, 3);
   (0x1a654952a28ec0, 3);
   (0x13886456bff8ff, 4);
   (0x1b0b9e9f7ff64d, 4);
   (0x118787ff154f0c, 5);
   (0x15492523754db3, 5);
   (0x1838c0547ca7de, 5);
   (0x19d6227c40b30e, 5);
   (0x19d6227c40b30e, 5);
   (0x1838c0547ca7de, 5);
   (0x15492523754db3, 5);
   (0x118787ff154f0c, 5);
   (0x1b0b9e9f7ff64d, 4);
   (0x13886456bff8ff, 4);
   (0x1a654952a28ec0, 3);
   (0x10abc285085a28, 3);
   (0x13a9c49ce907e1, 2);
   (0x15a12513005578, 1);
   (0x162832775e0023, 0);
   (0x151a17aea2aacc, (-1));
   (0x12a5f1351ea2d8, (-2));
   (0x1e83e7cb496790, (-4));
   (0x170e541c7059a0, (-5));
   (0x1009f7babd7600, (-6));
   (0x1479a92fc0d800, (-8));
   (0x17e3456260fc00, (-10));
   (0x1959ace5ca3000, (-12));
   (0x1856169f288000, (-14));
   (0x14fefa6b320000, (-16));
   (0x1026993ec40000, (-18));
   (0x15f0d02ea00000, (-21));
   (0x1a00f6bc000000, (-24));
   (0x1a79ffe0000000, (-27));
   (0x16b1b6c0000000, (-30));
   (0x1fd9fc00000000, (-34));
   (0x1192c000000000, (-37));
   (0x1c980000000000, (-42));
   (0x1e800000000000, (-47));
   (0x10000000000000, (-52));
   (0x10000000000000, (-52));
   (0x1f000000000000, (-47));
   (0x1d8c0000000000, (-42));
   (0x12778000000000, (-37));
   (0x11062a00000000, (-33));
   (0x18af5680000000, (-30));
   (0x1d5036b8000000, (-27));
   (0x1d5036b8000000, (-24));
   (0x1930ef06200000, (-21));
   (0x12e4b344980000, (-18));
   (0x1908a0bae30000, (-16));
   (0x1d95d539f50000, (-14));
   (0x1f6f328d945000, (-12));
   (0x1e39b09bd38800, (-10));
   (0x1a727a88591700, (-8));
   (0x15286206adac00, (-6));
   (0x1f134ff9cf14a0, (-5));
   (0x150588ecc0ca30, (-3));
   (0x1a46eb27f0fcbc, (-2));
   (0x1e6d104931fc38, (-1));
   (0x105a9f2757aac4, 1);
   (0x105a9f2757aac4, 2);
   (0x1e7a572669329d, 2);
   (0x1a80a4d37cde19, 3);
   (0x158885ebd57474, 4);
   (0x105d848008a02f, 5);
   (0x174a017b1ff7a6, 5);
   (0x1f0d574ed54a33, 5);
   (0x13685691454e60, 6);
   (0x16c0f2bbf8fac8, 6);
   (0x190771685ead76, 6);
   (0x19d6227c40b30e, 6);
   (0x190771685ead76, 6);
   (0x16c0f2bbf8fac8, 6);
   (0x13685691454e60, 6);
   (0x1f0d574ed54a33, 5);
   (0x174a017b1ff7a6, 5);
   (0x105d848008a02f, 5);
   (0x158885ebd57474, 4);
   (0x1a80a4d37cde19, 3);
   (0x1e7a572669329d, 2);
   (0x105a9f2757aac4, 2);
   (0x105a9f2757aac4, 1);
   (0x1e6d104931fc38, (-1));
   (0x1a46eb27f0fcbc, (-2));
   (0x150588ecc0ca30, (-3));
   (0x1f134ff9cf14a0, (-5));
   (0x15286206adac00, (-6));
   (0x1a727a88591700, (-8));
   (0x1e39b09bd38800, (-10));
   (0x1f6f328d945000, (-12));
   (0x1d95d539f50000, (-14));
   (0x1908a0bae30000, (-16));
   (0x12e4b344980000, (-18));
   (0x1930ef06200000, (-21));
   (0x1d5036b8000000, (-24));
   (0x1d5036b8000000, (-27));
   (0x18af5680000000, (-30));
   (0x11062a00000000, (-33));
   (0x12778000000000, (-37));
   (0x1d8c0000000000, (-42));
   (0x1f000000000000, (-47));
   (0x10000000000000, (-52));
   (0x10000000000000, (-52));
   (0x1f800000000000, (-47));
   (0x1e840000000000, (-42));
   (0x1363e000000000, (-37));
   (0x122da200000000, (-33));
   (0x1ad01bc0000000, (-30));
   (0x103310c4000000, (-26));
   (0x107d1ec7800000, (-23));
   (0x1cdaf5dd200000, (-21));
   (0x160ad1255c0000, (-18));
   (0x1dc1cd8c090000, (-16));
   (0x11ebfeb456e000, (-13));
   (0x136a53ee08c800, (-11));
   (0x130abe9f9c4e00, (-9));
   (0x11007357a6fc80, (-7));
   (0x1bc500a8c3f1c0, (-6));
   (0x14d3c07e92f550, (-4));
   (0x1cca5ceb348f58, (-3));
   (0x1264d7cf28b0ea, (-1));
   (0x15c842ee953d4b, 0);
   (0x17f5e339a429d2, 1);
   (0x1887eebb038027, 2);
   (0x176a7b26e06eb1, 3);
   (0x14dee83358bbb4, 4);
   (0x11646c2ac9f1c0, 5);
   (0x1b21c775f35a6a, 5);
   (0x13d3c2fd944beb, 6);
   (0x1b2bac64faa0ec, 6);
   (0x1177811c57f9bc, 7);
   (0x1514a4a69f2494, 7);
   (0x17e432122bd41f, 7);
   (0x196ec9f24fb042, 7);
   (0x196ec9f24fb042, 7);
   (0x17e432122bd41f, 7);
   (0x1514a4a69f2494, 7);
   (0x1177811c57f9bc, 7);
   (0x1b2bac64faa0ec, 6);
   (0x13d3c2fd944beb, 6);
   (0x1b21c775f35a6a, 5);
   (0x11646c2ac9f1c0, 5);
   (0x14dee83358bbb4, 4);
   (0x176a7b26e06eb1, 3);
   (0x1887eebb038027, 2);
   (0x17f5e339a429d2, 1);
   (0x15c842ee953d4b, 0);
   (0x1264d7cf28b0ea, (-1));
   (0x1cca5ceb348f58, (-3));
   (0x14d3c07e92f550, (-4));
   (0x1bc500a8c3f1c0, (-6));
   (0x11007357a6fc80, (-7));
   (0x130abe9f9c4e00, (-9));
   (0x136a53ee08c800, (-11));
   (0x11ebfeb456e000, (-13));
   (0x1dc1cd8c090000, (-16));
   (0x160ad1255c0000, (-18));
   (0x1cdaf5dd200000, (-21));
   (0x107d1ec7800000, (-23));
   (0x103310c4000000, (-26));
   (0x1ad01bc0000000, (-30));
   (0x122da200000000, (-33));
   (0x1363e000000000, (-37));
   (0x1e840000000000, (-42));
   (0x1f800000000000, (-47));
   (0x10000000000000, (-52));
   (0x10000000000000, (-52));
   (0x10000000000000, (-46));
   (0x1f800000000000, (-42));
   (0x14580000000000, (-37));
   (0x1363e000000000, (-33));
   (0x1d15d000000000, (-30));
   (0x11e01280000000, (-26));
   (0x128380e0000000, (-23));
   (0x107d1ec7800000, (-20));
   (0x19a62fe1000000, (-18));
   (0x11a240eab00000, (-15));
   (0x15a43865d80000, (-13));
   (0x17e5539b1e8000, (-11));
   (0x17e5539b1e8000, (-9));
   (0x15c322ff8e1000, (-7));
   (0x12229d2a4bb800, (-5));
   (0x1bc500a8c3f1c0, (-4));
   (0x139a1e953f0500, (-2));
   (0x19976f09f5d4c0, (-1));
   (0x1efaaed62995c0, 0);
   (0x116d025877643c, 2);
   (0x1241702beaca88, 3);
   (0x11d73942311762, 4);
   (0x104a12e3647986, 5);
   (0x1bd3e044764f9a, 5);
   (0x164319d05ea615, 6);
   (0x10b2535c46fc90, 7);
   (0x177fb7b147766c, 7);
   (0x1f0d574ed54a33, 7);
   (0x134612e17b8f28, 8);
   (0x167c6b5c657c5a, 8);
   (0x18a97e023dc231, 8);
   (0x196ec9f24fb042, 8);
   (0x18a97e023dc231, 8);
   (0x167c6b5c657c5a, 8);
   (0x134612e17b8f28, 8);
   (0x1f0d574ed54a33, 7);
   (0x177fb7b147766c, 7);
   (0x10b2535c46fc90, 7);
   (0x164319d05ea615, 6);
   (0x1bd3e044764f9a, 5);
   (0x104a12e3647986, 5);
   (0x11d73942311762, 4);
   (0x1241702beaca88, 3);
   (0x116d025877643c, 2);
   (0x1efaaed62995c0, 0);
   (0x19976f09f5d4c0, (-1));
   (0x139a1e953f0500, (-2));
   (0x1bc500a8c3f1c0, (-4));
   (0x12229d2a4bb800, (-5));
   (0x15c322ff8e1000, (-7));
   (0x17e5539b1e8000, (-9));
   (0x17e5539b1e8000, (-11));
   (0x15a43865d80000, (-13));
   (0x11a240eab00000, (-15));
   (0x19a62fe1000000, (-18));
   (0x107d1ec7800000, (-20));
   (0x128380e0000000, (-23));
   (0x11e01280000000, (-26));
   (0x1d15d000000000, (-30));
   (0x1363e000000000, (-33));
   (0x14580000000000, (-37));
   (0x1f800000000000, (-42));
   (0x10000000000000, (-46));
   (0x10000000000000, (-52))].

(** spherical_functions/ladder_operator_coefficients.npy, all 2145 entries in the order of the file *)
Definition ladder_file : list (Z * Z) :=
  [(0x0, 0);
   (0x10000000000000, (-52));
   (0x0, 0);
   (0x16a09e667f3bcc, (-52));
   (0x16a09e667f3bcc, (-52));
   (0x0, 0);
   (0x1bb67ae8584caa, (-52));
   (0x10000000000000, (-51));
   (0x1bb67ae8584caa, (-52));
   (0x0, 0);
   (0x10000000000000, (-51));
   (0x13988e1409212e, (-51));
   (0x13988e1409212e, (-51));
   (0x10000000000000, (-51));
   (0x0, 0);
   (0x11e3779b97f4a7, (-51));
   (0x16a09e667f3bcc, (-51));
   (0x18000000000000, (-51));
   (0x16a09e667f3bcc, (-51));
   (0x11e3779b97f4a7, (-51));
   (0x0, 0);
   (0x13988e1409212e, (-51));
   (0x194c583ada5b52, (-51));
   (0x1bb67ae8584caa, (-51));
   (0x1bb67ae8584caa, (-51));
   (0x194c583ada5b52, (-51));
   (0x13988e1409212e, (-51));
   (0x0, 0);
   (0x152a7fa9d2f8e9, (-51));
   (0x1bb67ae8584caa, (-51));
   (0x1efbdeb14f4ed9, (-51));
   (0x10000000000000, (-50));
   (0x1efbdeb14f4ed9, (-51));
   (0x1bb67ae8584caa, (-51));
   (0x152a7fa9d2f8e9, (-51));
   (0x0, 0);
   (0x16a09e667f3bcc, (-51));
   (0x1deeea11683f49, (-51));
   (0x10f876ccdf6cd9, (-50));
   (0x11e3779b97f4a7, (-50));
   (0x11e3779b97f4a7, (-50));
   (0x10f876ccdf6cd9, (-50));
   (0x1deeea11683f49, (-51));
   (0x16a09e667f3bcc, (-51));
   (0x0, 0);
   (0x18000000000000, (-51));
   (0x10000000000000, (-50));
   (0x12548eb9151e85, (-50));
   (0x13988e1409212e, (-50));
   (0x14000000000000, (-50));
   (0x13988e1409212e, (-50));
   (0x12548eb9151e85, (-50));
   (0x10000000000000, (-50));
   (0x18000000000000, (-51));
   (0x0, 0);
   (0x194c583ada5b52, (-51));
   (0x10f876ccdf6cd9, (-50));
   (0x13988e1409212e, (-50));
   (0x152a7fa9d2f8e9, (-50));
   (0x15e8add236a58e, (-50));
   (0x15e8add236a58e, (-50));
   (0x152a7fa9d2f8e9, (-50));
   (0x13988e1409212e, (-50));
   (0x10f876ccdf6cd9, (-50));
   (0x194c583ada5b52, (-51));
   (0x0, 0);
   (0x1a887293fd6f34, (-51));
   (0x11e3779b97f4a7, (-50));
   (0x14c8dc2e42397f, (-50));
   (0x16a09e667f3bcc, (-50));
   (0x17aa10d193c22c, (-50));
   (0x18000000000000, (-50));
   (0x17aa10d193c22c, (-50));
   (0x16a09e667f3bcc, (-50));
   (0x14c8dc2e42397f, (-50));
   (0x11e3779b97f4a7, (-50));
   (0x1a887293fd6f34, (-51));
   (0x0, 0);
   (0x1bb67ae8584caa, (-51));
   (0x12c2fc595456a6, (-50));
   (0x15e8add236a58e, (-50));
   (0x18000000000000, (-50));
   (0x194c583ada5b52, (-50));
   (0x19ec474a261263, (-50));
   (0x19ec474a261263, (-50));
   (0x194c583ada5b52, (-50));
   (0x18000000000000, (-50));
   (0x15e8add236a58e, (-50));
   (0x12c2fc595456a6, (-50));
   (0x1bb67ae8584caa, (-51));
   (0x0, 0);
   (0x1cd82b446159f3, (-51));
   (0x13988e1409212e, (-50));
   (0x16fa6ea162d0f0, (-50));
   (0x194c583ada5b52, (-50));
   (0x1ad5336963eefb, (-50));
   (0x1bb67ae8584caa, (-50));
   (0x1c000000000000, (-50));
   (0x1bb67ae8584caa, (-50));
   (0x1ad5336963eefb, (-50));
   (0x194c583ada5b52, (-50));
   (0x16fa6ea162d0f0, (-50));
   (0x13988e1409212e, (-50));
   (0x1cd82b446159f3, (-51));
   (0x0, 0);
   (0x1deeea11683f49, (-51));
   (0x1465655f122ff6, (-50));
   (0x18000000000000, (-50));
   (0x1a887293fd6f34, (-50));
   (0x1c48c6001f0abf, (-50));
   (0x1d64d51e0db1c5, (-50));
   (0x1deeea11683f49, (-50));
   (0x1deeea11683f49, (-50));
   (0x1d64d51e0db1c5, (-50));
   (0x1c48c6001f0abf, (-50));
   (0x1a887293fd6f34, (-50));
   (0x18000000000000, (-50));
   (0x1465655f122ff6, (-50));
   (0x1deeea11683f49, (-51));
   (0x0, 0);
   (0x1efbdeb14f4ed9, (-51));
   (0x152a7fa9d2f8e9, (-50));
   (0x18fae0c15ad389, (-50));
   (0x1bb67ae8584caa, (-50));
   (0x1daa2fefaae1d7, (-50));
   (0x1efbdeb14f4ed9, (-50));
   (0x1fbfbf7ebc755e, (-50));
   (0x10000000000000, (-49));
   (0x1fbfbf7ebc755e, (-50));
   (0x1efbdeb14f4ed9, (-50));
   (0x1daa2fefaae1d7, (-50));
   (0x1bb67ae8584caa, (-50));
   (0x18fae0c15ad389, (-50));
   (0x152a7fa9d2f8e9, (-50));
   (0x1efbdeb14f4ed9, (-51));
   (0x0, 0);
   (0x10000000000000, (-50));
   (0x15e8add236a58e, (-50));
   (0x19ec474a261263, (-50));
   (0x1cd82b446159f3, (-50));
   (0x1efbdeb14f4ed9, (-50));
   (0x103f81f636b80b, (-49));
   (0x10bbb307acafda, (-49));
   (0x10f876ccdf6cd9, (-49));
   (0x10f876ccdf6cd9, (-49));
   (0x10bbb307acafda, (-49));
   (0x103f81f636b80b, (-49));
   (0x1efbdeb14f4ed9, (-50));
   (0x1cd82b446159f3, (-50));
   (0x19ec474a261263, (-50));
   (0x15e8add236a58e, (-50));
   (0x10000000000000, (-50));
   (0x0, 0);
   (0x107e0f66afed06, (-50));
   (0x16a09e667f3bcc, (-50));
   (0x1ad5336963eefb, (-50));
   (0x1deeea11683f49, (-50));
   (0x101fe03f61bad0, (-49));
   (0x10f876ccdf6cd9, (-49));
   (0x118cc821d6d3e2, (-49));
   (0x11e3779b97f4a7, (-49));
   (0x12000000000000, (-49));
   (0x11e3779b97f4a7, (-49));
   (0x118cc821d6d3e2, (-49));
   (0x10f876ccdf6cd9, (-49));
   (0x101fe03f61bad0, (-49));
   (0x1deeea11683f49, (-50));
   (0x1ad5336963eefb, (-50));
   (0x16a09e667f3bcc, (-50));
   (0x107e0f66afed06, (-50));
   (0x0, 0);
   (0x10f876ccdf6cd9, (-50));
   (0x1752e50db3a3a1, (-50));
   (0x1bb67ae8584caa, (-50));
   (0x1efbdeb14f4ed9, (-50));
   (0x10bbb307acafda, (-49));
   (0x11a9dc8f6df103, (-49));
   (0x12548eb9151e85, (-49));
   (0x12c2fc595456a6, (-49));
   (0x12f9422c23c47d, (-49));
   (0x12f9422c23c47d, (-49));
   (0x12c2fc595456a6, (-49));
   (0x12548eb9151e85, (-49));
   (0x11a9dc8f6df103, (-49));
   (0x10bbb307acafda, (-49));
   (0x1efbdeb14f4ed9, (-50));
   (0x1bb67ae8584caa, (-50));
   (0x1752e50db3a3a1, (-50));
   (0x10f876ccdf6cd9, (-50));
   (0x0, 0);
   (0x116f8334644df8, (-50));
   (0x18000000000000, (-50));
   (0x1c90d29d2d43cd, (-50));
   (0x10000000000000, (-49));
   (0x11520cd1372fea, (-49));
   (0x12548eb9151e85, (-49));
   (0x13142b30a929ab, (-49));
   (0x13988e1409212e, (-49));
   (0x13e655eefe1367, (-49));
   (0x14000000000000, (-49));
   (0x13e655eefe1367, (-49));
   (0x13988e1409212e, (-49));
   (0x13142b30a929ab, (-49));
   (0x12548eb9151e85, (-49));
   (0x11520cd1372fea, (-49));
   (0x10000000000000, (-49));
   (0x1c90d29d2d43cd, (-50));
   (0x18000000000000, (-50));
   (0x116f8334644df8, (-50));
   (0x0, 0);
   (0x11e3779b97f4a7, (-50));
   (0x18a85c24f70659, (-50));
   (0x1d64d51e0db1c5, (-50));
   (0x107e0f66afed06, (-49));
   (0x11e3779b97f4a7, (-49));
   (0x12f9422c23c47d, (-49));
   (0x13cc8a99af5452, (-49));
   (0x1465655f122ff6, (-49));
   (0x14c8dc2e42397f, (-49));
   (0x14f9e6bbc4ecb3, (-49));
   (0x14f9e6bbc4ecb3, (-49));
   (0x14c8dc2e42397f, (-49));
   (0x1465655f122ff6, (-49));
   (0x13cc8a99af5452, (-49));
   (0x12f9422c23c47d, (-49));
   (0x11e3779b97f4a7, (-49));
   (0x107e0f66afed06, (-49));
   (0x1d64d51e0db1c5, (-50));
   (0x18a85c24f70659, (-50));
   (0x11e3779b97f4a7, (-50));
   (0x0, 0);
   (0x12548eb9151e85, (-50));
   (0x194c583ada5b52, (-50));
   (0x1e3307cc56cf5b, (-50));
   (0x10f876ccdf6cd9, (-49));
   (0x12706821902e9a, (-49));
   (0x13988e1409212e, (-49));
   (0x147e7054af0989, (-49));
   (0x152a7fa9d2f8e9, (-49));
   (0x15a22073490376, (-49));
   (0x15e8add236a58e, (-49));
   (0x16000000000000, (-49));
   (0x15e8add236a58e, (-49));
   (0x15a22073490376, (-49));
   (0x152a7fa9d2f8e9, (-49));
   (0x147e7054af0989, (-49));
   (0x13988e1409212e, (-49));
   (0x12706821902e9a, (-49));
   (0x10f876ccdf6cd9, (-49));
   (0x1e3307cc56cf5b, (-50));
   (0x194c583ada5b52, (-50));
   (0x12548eb9151e85, (-50));
   (0x0, 0);
   (0x12c2fc595456a6, (-50));
   (0x19ec474a261263, (-50));
   (0x1efbdeb14f4ed9, (-50));
   (0x116f8334644df8, (-49));
   (0x12f9422c23c47d, (-49));
   (0x1432f24fb01c7a, (-49));
   (0x152a7fa9d2f8e9, (-49));
   (0x15e8add236a58e, (-49));
   (0x16732f8d0e2f76, (-49));
   (0x16cdb2bbb212eb, (-49));
   (0x16fa6ea162d0f0, (-49));
   (0x16fa6ea162d0f0, (-49));
   (0x16cdb2bbb212eb, (-49));
   (0x16732f8d0e2f76, (-49));
   (0x15e8add236a58e, (-49));
   (0x152a7fa9d2f8e9, (-49));
   (0x1432f24fb01c7a, (-49));
   (0x12f9422c23c47d, (-49));
   (0x116f8334644df8, (-49));
   (0x1efbdeb14f4ed9, (-50));
   (0x19ec474a261263, (-50));
   (0x12c2fc595456a6, (-50));
   (0x0, 0);
   (0x132eee75770416, (-50));
   (0x1a887293fd6f34, (-50));
   (0x1fbfbf7ebc755e, (-50));
   (0x11e3779b97f4a7, (-49));
   (0x137e5bd40f95a1, (-49));
   (0x14c8dc2e42397f, (-49));
   (0x15d142b6dbadc5, (-49));
   (0x16a09e667f3bcc, (-49));
   (0x173ce704fb7b23, (-49));
   (0x17aa10d193c22c, (-49));
   (0x17eaa126f15283, (-49));
   (0x18000000000000, (-49));
   (0x17eaa126f15283, (-49));
   (0x17aa10d193c22c, (-49));
   (0x173ce704fb7b23, (-49));
   (0x16a09e667f3bcc, (-49));
   (0x15d142b6dbadc5, (-49));
   (0x14c8dc2e42397f, (-49));
   (0x137e5bd40f95a1, (-49));
   (0x11e3779b97f4a7, (-49));
   (0x1fbfbf7ebc755e, (-50));
   (0x1a887293fd6f34, (-50));
   (0x132eee75770416, (-50));
   (0x0, 0);
   (0x13988e1409212e, (-50));
   (0x1b211b1c70d023, (-50));
   (0x103f81f636b80b, (-49));
   (0x12548eb9151e85, (-49));
   (0x14000000000000, (-49));
   (0x155aaa002a9d59, (-49));
   (0x16732f8d0e2f76, (-49));
   (0x1752e50db3a3a1, (-49));
   (0x18000000000000, (-49));
   (0x187eb1990b697a, (-49));
   (0x18d1c0be7f20ab, (-49));
   (0x18fae0c15ad389, (-49));
   (0x18fae0c15ad389, (-49));
   (0x18d1c0be7f20ab, (-49));
   (0x187eb1990b697a, (-49));
   (0x18000000000000, (-49));
   (0x1752e50db3a3a1, (-49));
   (0x16732f8d0e2f76, (-49));
   (0x155aaa002a9d59, (-49));
   (0x14000000000000, (-49));
   (0x12548eb9151e85, (-49));
   (0x103f81f636b80b, (-49));
   (0x1b211b1c70d023, (-50));
   (0x13988e1409212e, (-50));
   (0x0, 0);
   (0x14000000000000, (-50));
   (0x1bb67ae8584caa, (-50));
   (0x109cfdcd8ed008, (-49));
   (0x12c2fc595456a6, (-49));
   (0x147e7054af0989, (-49));
   (0x15e8add236a58e, (-49));
   (0x1710ac0b5e5e31, (-49));
   (0x18000000000000, (-49));
   (0x18bd171a07e38a, (-49));
   (0x194c583ada5b52, (-49));
   (0x19b0c25315c2cd, (-49));
   (0x19ec474a261263, (-49));
   (0x1a000000000000, (-49));
   (0x19ec474a261263, (-49));
   (0x19b0c25315c2cd, (-49));
   (0x194c583ada5b52, (-49));
   (0x18bd171a07e38a, (-49));
   (0x18000000000000, (-49));
   (0x1710ac0b5e5e31, (-49));
   (0x15e8add236a58e, (-49));
   (0x147e7054af0989, (-49));
   (0x12c2fc595456a6, (-49));
   (0x109cfdcd8ed008, (-49));
   (0x1bb67ae8584caa, (-50));
   (0x14000000000000, (-50));
   (0x0, 0);
   (0x1465655f122ff6, (-50));
   (0x1c48c6001f0abf, (-50));
   (0x10f876ccdf6cd9, (-49));
   (0x132eee75770416, (-49));
   (0x14f9e6bbc4ecb3, (-49));
   (0x16732f8d0e2f76, (-49));
   (0x17aa10d193c22c, (-49));
   (0x18a85c24f70659, (-49));
   (0x1974b2334f2346, (-49));
   (0x1a13a9cb996650, (-49));
   (0x1a887293fd6f34, (-49));
   (0x1ad5336963eefb, (-49));
   (0x1afb41f432002d, (-49));
   (0x1afb41f432002d, (-49));
   (0x1ad5336963eefb, (-49));
   (0x1a887293fd6f34, (-49));
   (0x1a13a9cb996650, (-49));
   (0x1974b2334f2346, (-49));
   (0x18a85c24f70659, (-49));
   (0x17aa10d193c22c, (-49));
   (0x16732f8d0e2f76, (-49));
   (0x14f9e6bbc4ecb3, (-49));
   (0x132eee75770416, (-49));
   (0x10f876ccdf6cd9, (-49));
   (0x1c48c6001f0abf, (-50));
   (0x1465655f122ff6, (-50));
   (0x0, 0);
   (0x14c8dc2e42397f, (-50));
   (0x1cd82b446159f3, (-50));
   (0x11520cd1372fea, (-49));
   (0x13988e1409212e, (-49));
   (0x1572969b8b5cd8, (-49));
   (0x16fa6ea162d0f0, (-49));
   (0x183fab8b4d4315, (-49));
   (0x194c583ada5b52, (-49));
   (0x1a2744ce9674f4, (-49));
   (0x1ad5336963eefb, (-49));
   (0x1b597ea47fdda2, (-49));
   (0x1bb67ae8584caa, (-49));
   (0x1bedb0defaf661, (-49));
   (0x1c000000000000, (-49));
   (0x1bedb0defaf661, (-49));
   (0x1bb67ae8584caa, (-49));
   (0x1b597ea47fdda2, (-49));
   (0x1ad5336963eefb, (-49));
   (0x1a2744ce9674f4, (-49));
   (0x194c583ada5b52, (-49));
   (0x183fab8b4d4315, (-49));
   (0x16fa6ea162d0f0, (-49));
   (0x1572969b8b5cd8, (-49));
   (0x13988e1409212e, (-49));
   (0x11520cd1372fea, (-49));
   (0x1cd82b446159f3, (-50));
   (0x14c8dc2e42397f, (-50));
   (0x0, 0);
   (0x152a7fa9d2f8e9, (-50));
   (0x1d64d51e0db1c5, (-50));
   (0x11a9dc8f6df103, (-49));
   (0x14000000000000, (-49));
   (0x15e8add236a58e, (-49));
   (0x177ea35d632e43, (-49));
   (0x18d1c0be7f20ab, (-49));
   (0x19ec474a261263, (-49));
   (0x1ad5336963eefb, (-49));
   (0x1b916ed68964ec, (-49));
   (0x1c247a85fe81fa, (-49));
   (0x1c90d29d2d43cd, (-49));
   (0x1cd82b446159f3, (-49));
   (0x1cfb95bb9dcc0c, (-49));
   (0x1cfb95bb9dcc0c, (-49));
   (0x1cd82b446159f3, (-49));
   (0x1c90d29d2d43cd, (-49));
   (0x1c247a85fe81fa, (-49));
   (0x1b916ed68964ec, (-49));
   (0x1ad5336963eefb, (-49));
   (0x19ec474a261263, (-49));
   (0x18d1c0be7f20ab, (-49));
   (0x177ea35d632e43, (-49));
   (0x15e8add236a58e, (-49));
   (0x14000000000000, (-49));
   (0x11a9dc8f6df103, (-49));
   (0x1d64d51e0db1c5, (-50));
   (0x152a7fa9d2f8e9, (-50));
   (0x0, 0);
   (0x158a68a4a8d9f3, (-50));
   (0x1deeea11683f49, (-50));
   (0x12000000000000, (-49));
   (0x1465655f122ff6, (-49));
   (0x165c55827df1d1, (-49));
   (0x18000000000000, (-49));
   (0x19608d3c41fb4b, (-49));
   (0x1a887293fd6f34, (-49));
   (0x1b7ed6159fadc7, (-49));
   (0x1c48c6001f0abf, (-49));
   (0x1ce9e5ec2bda7f, (-49));
   (0x1d64d51e0db1c5, (-49));
   (0x1dbb6d5ce3a42e, (-49));
   (0x1deeea11683f49, (-49));
   (0x1e000000000000, (-49));
   (0x1deeea11683f49, (-49));
   (0x1dbb6d5ce3a42e, (-49));
   (0x1d64d51e0db1c5, (-49));
   (0x1ce9e5ec2bda7f, (-49));
   (0x1c48c6001f0abf, (-49));
   (0x1b7ed6159fadc7, (-49));
   (0x1a887293fd6f34, (-49));
   (0x19608d3c41fb4b, (-49));
   (0x18000000000000, (-49));
   (0x165c55827df1d1, (-49));
   (0x1465655f122ff6, (-49));
   (0x12000000000000, (-49));
   (0x1deeea11683f49, (-50));
   (0x158a68a4a8d9f3, (-50));
   (0x0, 0);
   (0x15e8add236a58e, (-50));
   (0x1e768d399dc46f, (-50));
   (0x12548eb9151e85, (-49));
   (0x14c8dc2e42397f, (-49));
   (0x16cdb2bbb212eb, (-49));
   (0x187eb1990b697a, (-49));
   (0x19ec474a261263, (-49));
   (0x1b211b1c70d023, (-49));
   (0x1c247a85fe81fa, (-49));
   (0x1cfb95bb9dcc0c, (-49));
   (0x1daa2fefaae1d7, (-49));
   (0x1e3307cc56cf5b, (-49));
   (0x1e98180e9b47f1, (-49));
   (0x1edac054c8f94c, (-49));
   (0x1efbdeb14f4ed9, (-49));
   (0x1efbdeb14f4ed9, (-49));
   (0x1edac054c8f94c, (-49));
   (0x1e98180e9b47f1, (-49));
   (0x1e3307cc56cf5b, (-49));
   (0x1daa2fefaae1d7, (-49));
   (0x1cfb95bb9dcc0c, (-49));
   (0x1c247a85fe81fa, (-49));
   (0x1b211b1c70d023, (-49));
   (0x19ec474a261263, (-49));
   (0x187eb1990b697a, (-49));
   (0x16cdb2bbb212eb, (-49));
   (0x14c8dc2e42397f, (-49));
   (0x12548eb9151e85, (-49));
   (0x1e768d399dc46f, (-50));
   (0x15e8add236a58e, (-50));
   (0x0, 0);
   (0x1645640568c1c3, (-50));
   (0x1efbdeb14f4ed9, (-50));
   (0x12a79e3a2cd2e5, (-49));
   (0x152a7fa9d2f8e9, (-49));
   (0x173ce704fb7b23, (-49));
   (0x18fae0c15ad389, (-49));
   (0x1a751f9447b724, (-49));
   (0x1bb67ae8584caa, (-49));
   (0x1cc665b0328621, (-49));
   (0x1daa2fefaae1d7, (-49));
   (0x1e65b9edeba38d, (-49));
   (0x1efbdeb14f4ed9, (-49));
   (0x1f6eb62d27730c, (-49));
   (0x1fbfbf7ebc755e, (-49));
   (0x1feffbfdfebf1f, (-49));
   (0x10000000000000, (-48));
   (0x1feffbfdfebf1f, (-49));
   (0x1fbfbf7ebc755e, (-49));
   (0x1f6eb62d27730c, (-49));
   (0x1efbdeb14f4ed9, (-49));
   (0x1e65b9edeba38d, (-49));
   (0x1daa2fefaae1d7, (-49));
   (0x1cc665b0328621, (-49));
   (0x1bb67ae8584caa, (-49));
   (0x1a751f9447b724, (-49));
   (0x18fae0c15ad389, (-49));
   (0x173ce704fb7b23, (-49));
   (0x152a7fa9d2f8e9, (-49));
   (0x12a79e3a2cd2e5, (-49));
   (0x1efbdeb14f4ed9, (-50));
   (0x1645640568c1c3, (-50));
   (0x0, 0);
   (0x16a09e667f3bcc, (-50));
   (0x1f7efbeb8d4f11, (-50));
   (0x12f9422c23c47d, (-49));
   (0x158a68a4a8d9f3, (-49));
   (0x17aa10d193c22c, (-49));
   (0x1974b2334f2346, (-49));
   (0x1afb41f432002d, (-49));
   (0x1c48c6001f0abf, (-49));
   (0x1d64d51e0db1c5, (-49));
   (0x1e54dd4ce75f1d, (-49));
   (0x1f1cd9cceef239, (-49));
   (0x1fbfbf7ebc755e, (-49));
   (0x101fe03f61bad0, (-48));
   (0x104f3bd03c0a64, (-48));
   (0x106e825da8fc2b, (-48));
   (0x107e0f66afed06, (-48));
   (0x107e0f66afed06, (-48));
   (0x106e825da8fc2b, (-48));
   (0x104f3bd03c0a64, (-48));
   (0x101fe03f61bad0, (-48));
   (0x1fbfbf7ebc755e, (-49));
   (0x1f1cd9cceef239, (-49));
   (0x1e54dd4ce75f1d, (-49));
   (0x1d64d51e0db1c5, (-49));
   (0x1c48c6001f0abf, (-49));
   (0x1afb41f432002d, (-49));
   (0x1974b2334f2346, (-49));
   (0x17aa10d193c22c, (-49));
   (0x158a68a4a8d9f3, (-49));
   (0x12f9422c23c47d, (-49));
   (0x1f7efbeb8d4f11, (-50));
   (0x16a09e667f3bcc, (-50));
   (0x0, 0);
   (0x16fa6ea162d0f0, (-50));
   (0x10000000000000, (-49));
   (0x13498c97b10540, (-49));
   (0x15e8add236a58e, (-49));
   (0x18154be2773525, (-49));
   (0x19ec474a261263, (-49));
   (0x1b7ed6159fadc7, (-49));
   (0x1cd82b446159f3, (-49));
   (0x1e000000000000, (-49));
   (0x1efbdeb14f4ed9, (-49));
   (0x1fcfdbc999e97d, (-49));
   (0x103f81f636b80b, (-48));
   (0x1085d06e1f0517, (-48));
   (0x10bbb307acafda, (-48));
   (0x10e1c7047b3b50, (-48));
   (0x10f876ccdf6cd9, (-48));
   (0x11000000000000, (-48));
   (0x10f876ccdf6cd9, (-48));
   (0x10e1c7047b3b50, (-48));
   (0x10bbb307acafda, (-48));
   (0x1085d06e1f0517, (-48));
   (0x103f81f636b80b, (-48));
   (0x1fcfdbc999e97d, (-49));
   (0x1efbdeb14f4ed9, (-49));
   (0x1e000000000000, (-49));
   (0x1cd82b446159f3, (-49));
   (0x1b7ed6159fadc7, (-49));
   (0x19ec474a261263, (-49));
   (0x18154be2773525, (-49));
   (0x15e8add236a58e, (-49));
   (0x13498c97b10540, (-49));
   (0x10000000000000, (-49));
   (0x16fa6ea162d0f0, (-50));
   (0x0, 0);
   (0x1752e50db3a3a1, (-50));
   (0x103f81f636b80b, (-49));
   (0x13988e1409212e, (-49));
   (0x1645640568c1c3, (-49));
   (0x187eb1990b697a, (-49));
   (0x1a61be6cfec996, (-49));
   (0x1c000000000000, (-49));
   (0x1d64d51e0db1c5, (-49));
   (0x1e98180e9b47f1, (-49));
   (0x1f9f6e4990f227, (-49));
   (0x103f81f636b80b, (-48));
   (0x109cfdcd8ed008, (-48));
   (0x10e95a539f492b, (-48));
   (0x11257c5187fd08, (-48));
   (0x11520cd1372fea, (-48));
   (0x116f8334644df8, (-48));
   (0x117e2bca46bab9, (-48));
   (0x117e2bca46bab9, (-48));
   (0x116f8334644df8, (-48));
   (0x11520cd1372fea, (-48));
   (0x11257c5187fd08, (-48));
   (0x10e95a539f492b, (-48));
   (0x109cfdcd8ed008, (-48));
   (0x103f81f636b80b, (-48));
   (0x1f9f6e4990f227, (-49));
   (0x1e98180e9b47f1, (-49));
   (0x1d64d51e0db1c5, (-49));
   (0x1c000000000000, (-49));
   (0x1a61be6cfec996, (-49));
   (0x187eb1990b697a, (-49));
   (0x1645640568c1c3, (-49));
   (0x13988e1409212e, (-49));
   (0x103f81f636b80b, (-49));
   (0x1752e50db3a3a1, (-50));
   (0x0, 0);
   (0x17aa10d193c22c, (-50));
   (0x107e0f66afed06, (-49));
   (0x13e655eefe1367, (-49));
   (0x16a09e667f3bcc, (-49));
   (0x18e6593d77b0b7, (-49));
   (0x1ad5336963eefb, (-49));
   (0x1c7ee08a0e6d4c, (-49));
   (0x1deeea11683f49, (-49));
   (0x1f2d4a4563563f, (-49));
   (0x101fe03f61bad0, (-48));
   (0x1095479c7e6580, (-48));
   (0x10f876ccdf6cd9, (-48));
   (0x114aa7606f8bb0, (-48));
   (0x118cc821d6d3e2, (-48));
   (0x11bf8c9d2ed1a1, (-48));
   (0x11e3779b97f4a7, (-48));
   (0x11f8e226127f60, (-48));
   (0x12000000000000, (-48));
   (0x11f8e226127f60, (-48));
   (0x11e3779b97f4a7, (-48));
   (0x11bf8c9d2ed1a1, (-48));
   (0x118cc821d6d3e2, (-48));
   (0x114aa7606f8bb0, (-48));
   (0x10f876ccdf6cd9, (-48));
   (0x1095479c7e6580, (-48));
   (0x101fe03f61bad0, (-48));
   (0x1f2d4a4563563f, (-49));
   (0x1deeea11683f49, (-49));
   (0x1c7ee08a0e6d4c, (-49));
   (0x1ad5336963eefb, (-49));
   (0x18e6593d77b0b7, (-49));
   (0x16a09e667f3bcc, (-49));
   (0x13e655eefe1367, (-49));
   (0x107e0f66afed06, (-49));
   (0x17aa10d193c22c, (-50));
   (0x0, 0);
   (0x18000000000000, (-50));
   (0x10bbb307acafda, (-49));
   (0x1432f24fb01c7a, (-49));
   (0x16fa6ea162d0f0, (-49));
   (0x194c583ada5b52, (-49));
   (0x1b46bfc05aeb89, (-49));
   (0x1cfb95bb9dcc0c, (-49));
   (0x1e768d399dc46f, (-49));
   (0x1fbfbf7ebc755e, (-49));
   (0x106e825da8fc2b, (-48));
   (0x10e95a539f492b, (-48));
   (0x11520cd1372fea, (-48));
   (0x11a9dc8f6df103, (-48));
   (0x11f1c1799ca8fe, (-48));
   (0x122a788fc76de5, (-48));
   (0x12548eb9151e85, (-48));
   (0x12706821902e9a, (-48));
   (0x127e451bb944c3, (-48));
   (0x127e451bb944c3, (-48));
   (0x12706821902e9a, (-48));
   (0x12548eb9151e85, (-48));
   (0x122a788fc76de5, (-48));
   (0x11f1c1799ca8fe, (-48));
   (0x11a9dc8f6df103, (-48));
   (0x11520cd1372fea, (-48));
   (0x10e95a539f492b, (-48));
   (0x106e825da8fc2b, (-48));
   (0x1fbfbf7ebc755e, (-49));
   (0x1e768d399dc46f, (-49));
   (0x1cfb95bb9dcc0c, (-49));
   (0x1b46bfc05aeb89, (-49));
   (0x194c583ada5b52, (-49));
   (0x16fa6ea162d0f0, (-49));
   (0x1432f24fb01c7a, (-49));
   (0x10bbb307acafda, (-49));
   (0x18000000000000, (-50));
   (0x0, 0);
   (0x1854bfb363dc39, (-50));
   (0x10f876ccdf6cd9, (-49));
   (0x147e7054af0989, (-49));
   (0x1752e50db3a3a1, (-49));
   (0x19b0c25315c2cd, (-49));
   (0x1bb67ae8584caa, (-49));
   (0x1d763b20d435ef, (-49));
   (0x1efbdeb14f4ed9, (-49));
   (0x1027ce7b7ea376, (-48));
   (0x10bbb307acafda, (-48));
   (0x113bd2f90a1cb4, (-48));
   (0x11a9dc8f6df103, (-48));
   (0x12071b0abcd838, (-48));
   (0x12548eb9151e85, (-48));
   (0x1292fd2c6a6262, (-48));
   (0x12c2fc595456a6, (-48));
   (0x12e4fa41f10c9a, (-48));
   (0x12f9422c23c47d, (-48));
   (0x13000000000000, (-48));
   (0x12f9422c23c47d, (-48));
   (0x12e4fa41f10c9a, (-48));
   (0x12c2fc595456a6, (-48));
   (0x1292fd2c6a6262, (-48));
   (0x12548eb9151e85, (-48));
   (0x12071b0abcd838, (-48));
   (0x11a9dc8f6df103, (-48));
   (0x113bd2f90a1cb4, (-48));
   (0x10bbb307acafda, (-48));
   (0x1027ce7b7ea376, (-48));
   (0x1efbdeb14f4ed9, (-49));
   (0x1d763b20d435ef, (-49));
   (0x1bb67ae8584caa, (-49));
   (0x19b0c25315c2cd, (-49));
   (0x1752e50db3a3a1, (-49));
   (0x147e7054af0989, (-49));
   (0x10f876ccdf6cd9, (-49));
   (0x1854bfb363dc39, (-50));
   (0x0, 0);
   (0x18a85c24f70659, (-50));
   (0x113463fa37014e, (-49));
   (0x14c8dc2e42397f, (-49));
   (0x17aa10d193c22c, (-49));
   (0x1a13a9cb996650, (-49));
   (0x1c247a85fe81fa, (-49));
   (0x1deeea11683f49, (-49));
   (0x1f7efbeb8d4f11, (-49));
   (0x106e825da8fc2b, (-48));
   (0x110785dd689a28, (-48));
   (0x118cc821d6d3e2, (-48));
   (0x12000000000000, (-48));
   (0x126280b3476096, (-48));
   (0x12b5524ae1278d, (-48));
   (0x12f9422c23c47d, (-48));
   (0x132eee75770416, (-48));
   (0x1356cdebc9b5e2, (-48));
   (0x137135779c8dca, (-48));
   (0x137e5bd40f95a1, (-48));
   (0x137e5bd40f95a1, (-48));
   (0x137135779c8dca, (-48));
   (0x1356cdebc9b5e2, (-48));
   (0x132eee75770416, (-48));
   (0x12f9422c23c47d, (-48));
   (0x12b5524ae1278d, (-48));
   (0x126280b3476096, (-48));
   (0x12000000000000, (-48));
   (0x118cc821d6d3e2, (-48));
   (0x110785dd689a28, (-48));
   (0x106e825da8fc2b, (-48));
   (0x1f7efbeb8d4f11, (-49));
   (0x1deeea11683f49, (-49));
   (0x1c247a85fe81fa, (-49));
   (0x1a13a9cb996650, (-49));
   (0x17aa10d193c22c, (-49));
   (0x14c8dc2e42397f, (-49));
   (0x113463fa37014e, (-49));
   (0x18a85c24f70659, (-50));
   (0x0, 0);
   (0x18fae0c15ad389, (-50));
   (0x116f8334644df8, (-49));
   (0x151241356cf6e0, (-49));
   (0x18000000000000, (-49));
   (0x1a751f9447b724, (-49));
   (0x1c90d29d2d43cd, (-49));
   (0x1e65b9edeba38d, (-49));
   (0x10000000000000, (-48));
   (0x10b40b040e9152, (-48));
   (0x11520cd1372fea, (-48));
   (0x11dc4e63383328, (-48));
   (0x12548eb9151e85, (-48));
   (0x12bc2891041ea7, (-48));
   (0x13142b30a929ab, (-48));
   (0x135d6b2ed19148, (-48));
   (0x13988e1409212e, (-48));
   (0x13c6128271b922, (-48));
   (0x13e655eefe1367, (-48));
   (0x13f9989320b7f7, (-48));
   (0x14000000000000, (-48));
   (0x13f9989320b7f7, (-48));
   (0x13e655eefe1367, (-48));
   (0x13c6128271b922, (-48));
   (0x13988e1409212e, (-48));
   (0x135d6b2ed19148, (-48));
   (0x13142b30a929ab, (-48));
   (0x12bc2891041ea7, (-48));
   (0x12548eb9151e85, (-48));
   (0x11dc4e63383328, (-48));
   (0x11520cd1372fea, (-48));
   (0x10b40b040e9152, (-48));
   (0x10000000000000, (-48));
   (0x1e65b9edeba38d, (-49));
   (0x1c90d29d2d43cd, (-49));
   (0x1a751f9447b724, (-49));
   (0x18000000000000, (-49));
   (0x151241356cf6e0, (-49));
   (0x116f8334644df8, (-49));
   (0x18fae0c15ad389, (-50));
   (0x0, 0);
   (0x194c583ada5b52, (-50));
   (0x11a9dc8f6df103, (-49));
   (0x155aaa002a9d59, (-49));
   (0x1854bfb363dc39, (-49));
   (0x1ad5336963eefb, (-49));
   (0x1cfb95bb9dcc0c, (-49));
   (0x1edac054c8f94c, (-49));
   (0x103f81f636b80b, (-48));
   (0x10f876ccdf6cd9, (-48));
   (0x119b58598f7c9e, (-48));
   (0x122a788fc76de5, (-48));
   (0x12a79e3a2cd2e5, (-48));
   (0x13142b30a929ab, (-48));
   (0x137135779c8dca, (-48));
   (0x13bf984cb56c77, (-48));
   (0x14000000000000, (-48));
   (0x1432f24fb01c7a, (-48));
   (0x1458d455549c1a, (-48));
   (0x1471eeaf76c2c6, (-48));
   (0x147e7054af0989, (-48));
   (0x147e7054af0989, (-48));
   (0x1471eeaf76c2c6, (-48));
   (0x1458d455549c1a, (-48));
   (0x1432f24fb01c7a, (-48));
   (0x14000000000000, (-48));
   (0x13bf984cb56c77, (-48));
   (0x137135779c8dca, (-48));
   (0x13142b30a929ab, (-48));
   (0x12a79e3a2cd2e5, (-48));
   (0x122a788fc76de5, (-48));
   (0x119b58598f7c9e, (-48));
   (0x10f876ccdf6cd9, (-48));
   (0x103f81f636b80b, (-48));
   (0x1edac054c8f94c, (-49));
   (0x1cfb95bb9dcc0c, (-49));
   (0x1ad5336963eefb, (-49));
   (0x1854bfb363dc39, (-49));
   (0x155aaa002a9d59, (-49));
   (0x11a9dc8f6df103, (-49));
   (0x194c583ada5b52, (-50));
   (0x0, 0);
   (0x199ccc999fff00, (-50));
   (0x11e3779b97f4a7, (-49));
   (0x15a22073490376, (-49));
   (0x18a85c24f70659, (-49));
   (0x1b33f3f1490dee, (-49));
   (0x1d64d51e0db1c5, (-49));
   (0x1f4e115049ec25, (-49));
   (0x107e0f66afed06, (-48));
   (0x113bd2f90a1cb4, (-48));
   (0x11e3779b97f4a7, (-48));
   (0x127757ebaf9368, (-48));
   (0x12f9422c23c47d, (-48));
   (0x136a9ef26f762e, (-48));
   (0x13cc8a99af5452, (-48));
   (0x141fe68f0af33c, (-48));
   (0x1465655f122ff6, (-48));
   (0x149d93405be848, (-48));
   (0x14c8dc2e42397f, (-48));
   (0x14e790422e898e, (-48));
   (0x14f9e6bbc4ecb3, (-48));
   (0x15000000000000, (-48));
   (0x14f9e6bbc4ecb3, (-48));
   (0x14e790422e898e, (-48));
   (0x14c8dc2e42397f, (-48));
   (0x149d93405be848, (-48));
   (0x1465655f122ff6, (-48));
   (0x141fe68f0af33c, (-48));
   (0x13cc8a99af5452, (-48));
   (0x136a9ef26f762e, (-48));
   (0x12f9422c23c47d, (-48));
   (0x127757ebaf9368, (-48));
   (0x11e3779b97f4a7, (-48));
   (0x113bd2f90a1cb4, (-48));
   (0x107e0f66afed06, (-48));
   (0x1f4e115049ec25, (-49));
   (0x1d64d51e0db1c5, (-49));
   (0x1b33f3f1490dee, (-49));
   (0x18a85c24f70659, (-49));
   (0x15a22073490376, (-49));
   (0x11e3779b97f4a7, (-49));
   (0x199ccc999fff00, (-50));
   (0x0, 0);
   (0x19ec474a261263, (-50));
   (0x121c5b70d9f823, (-49));
   (0x15e8add236a58e, (-49));
   (0x18fae0c15ad389, (-49));
   (0x1b916ed68964ec, (-49));
   (0x1dcca0d0cbf408, (-49));
   (0x1fbfbf7ebc755e, (-49));
   (0x10bbb307acafda, (-48));
   (0x117e2bca46bab9, (-48));
   (0x122a788fc76de5, (-48));
   (0x12c2fc595456a6, (-48));
   (0x13498c97b10540, (-48));
   (0x13bf984cb56c77, (-48));
   (0x142641cf569571, (-48));
   (0x147e7054af0989, (-48));
   (0x14c8dc2e42397f, (-48));
   (0x1506177f5491ba, (-48));
   (0x1536948017480f, (-48));
   (0x155aaa002a9d59, (-48));
   (0x1572969b8b5cd8, (-48));
   (0x157e82ecdabe8c, (-48));
   (0x157e82ecdabe8c, (-48));
   (0x1572969b8b5cd8, (-48));
   (0x155aaa002a9d59, (-48));
   (0x1536948017480f, (-48));
   (0x1506177f5491ba, (-48));
   (0x14c8dc2e42397f, (-48));
   (0x147e7054af0989, (-48));
   (0x142641cf569571, (-48));
   (0x13bf984cb56c77, (-48));
   (0x13498c97b10540, (-48));
   (0x12c2fc595456a6, (-48));
   (0x122a788fc76de5, (-48));
   (0x117e2bca46bab9, (-48));
   (0x10bbb307acafda, (-48));
   (0x1fbfbf7ebc755e, (-49));
   (0x1dcca0d0cbf408, (-49));
   (0x1b916ed68964ec, (-49));
   (0x18fae0c15ad389, (-49));
   (0x15e8add236a58e, (-49));
   (0x121c5b70d9f823, (-49));
   (0x19ec474a261263, (-50));
   (0x0, 0);
   (0x1a3ad12a1da160, (-50));
   (0x12548eb9151e85, (-49));
   (0x162e5acd0c3ebd, (-49));
   (0x194c583ada5b52, (-49));
   (0x1bedb0defaf661, (-49));
   (0x1e3307cc56cf5b, (-49));
   (0x1017ee1acdc962, (-48));
   (0x10f876ccdf6cd9, (-48));
   (0x11bf8c9d2ed1a1, (-48));
   (0x12706821902e9a, (-48));
   (0x130d747fbcb4b5, (-48));
   (0x13988e1409212e, (-48));
   (0x14132a04b5c968, (-48));
   (0x147e7054af0989, (-48));
   (0x14db4da6bac4aa, (-48));
   (0x152a7fa9d2f8e9, (-48));
   (0x156c9df5e1f2da, (-48));
   (0x15a22073490376, (-48));
   (0x15cb64017d6176, (-48));
   (0x15e8add236a58e, (-48));
   (0x15fa2dc67adf4d, (-48));
   (0x16000000000000, (-48));
   (0x15fa2dc67adf4d, (-48));
   (0x15e8add236a58e, (-48));
   (0x15cb64017d6176, (-48));
   (0x15a22073490376, (-48));
   (0x156c9df5e1f2da, (-48));
   (0x152a7fa9d2f8e9, (-48));
   (0x14db4da6bac4aa, (-48));
   (0x147e7054af0989, (-48));
   (0x14132a04b5c968, (-48));
   (0x13988e1409212e, (-48));
   (0x130d747fbcb4b5, (-48));
   (0x12706821902e9a, (-48));
   (0x11bf8c9d2ed1a1, (-48));
   (0x10f876ccdf6cd9, (-48));
   (0x1017ee1acdc962, (-48));
   (0x1e3307cc56cf5b, (-49));
   (0x1bedb0defaf661, (-49));
   (0x194c583ada5b52, (-49));
   (0x162e5acd0c3ebd, (-49));
   (0x12548eb9151e85, (-49));
   (0x1a3ad12a1da160, (-50));
   (0x0, 0);
   (0x1a887293fd6f34, (-50));
   (0x128c17b9337833, (-49));
   (0x16732f8d0e2f76, (-49));
   (0x199ccc999fff00, (-49));
   (0x1c48c6001f0abf, (-49));
   (0x1e98180e9b47f1, (-49));
   (0x104f3bd03c0a64, (-48));
   (0x113463fa37014e, (-48));
   (0x12000000000000, (-48));
   (0x12b5524ae1278d, (-48));
   (0x1356cdebc9b5e2, (-48));
   (0x13e655eefe1367, (-48));
   (0x1465655f122ff6, (-48));
   (0x14d529a457fcfb, (-48));
   (0x1536948017480f, (-48));
   (0x158a68a4a8d9f3, (-48));
   (0x15d142b6dbadc5, (-48));
   (0x160b9fd68a4554, (-48));
   (0x1639e2653e421a, (-48));
   (0x165c55827df1d1, (-48));
   (0x16732f8d0e2f76, (-48));
   (0x167e93ddbc0e72, (-48));
   (0x167e93ddbc0e72, (-48));
   (0x16732f8d0e2f76, (-48));
   (0x165c55827df1d1, (-48));
   (0x1639e2653e421a, (-48));
   (0x160b9fd68a4554, (-48));
   (0x15d142b6dbadc5, (-48));
   (0x158a68a4a8d9f3, (-48));
   (0x1536948017480f, (-48));
   (0x14d529a457fcfb, (-48));
   (0x1465655f122ff6, (-48));
   (0x13e655eefe1367, (-48));
   (0x1356cdebc9b5e2, (-48));
   (0x12b5524ae1278d, (-48));
   (0x12000000000000, (-48));
   (0x113463fa37014e, (-48));
   (0x104f3bd03c0a64, (-48));
   (0x1e98180e9b47f1, (-49));
   (0x1c48c6001f0abf, (-49));
   (0x199ccc999fff00, (-49));
   (0x16732f8d0e2f76, (-49));
   (0x128c17b9337833, (-49));
   (0x1a887293fd6f34, (-50));
   (0x0, 0);
   (0x1ad5336963eefb, (-50));
   (0x12c2fc595456a6, (-49));
   (0x16b733bfd8c648, (-49));
   (0x19ec474a261263, (-49));
   (0x1ca2b9714180f6, (-49));
   (0x1efbdeb14f4ed9, (-49));
   (0x1085d06e1f0517, (-48));
   (0x116f8334644df8, (-48));
   (0x123f8fc68ae52b, (-48));
   (0x12f9422c23c47d, (-48));
   (0x139f152d0f5470, (-48));
   (0x1432f24fb01c7a, (-48));
   (0x14b65a49968d7e, (-48));
   (0x152a7fa9d2f8e9, (-48));
   (0x1590590a698c4b, (-48));
   (0x15e8add236a58e, (-48));
   (0x16341f58bada13, (-48));
   (0x16732f8d0e2f76, (-48));
   (0x16a645d9411b84, (-48));
   (0x16cdb2bbb212eb, (-48));
   (0x16e9b2675a6626, (-48));
   (0x16fa6ea162d0f0, (-48));
   (0x17000000000000, (-48));
   (0x16fa6ea162d0f0, (-48));
   (0x16e9b2675a6626, (-48));
   (0x16cdb2bbb212eb, (-48));
   (0x16a645d9411b84, (-48));
   (0x16732f8d0e2f76, (-48));
   (0x16341f58bada13, (-48));
   (0x15e8add236a58e, (-48));
   (0x1590590a698c4b, (-48));
   (0x152a7fa9d2f8e9, (-48));
   (0x14b65a49968d7e, (-48));
   (0x1432f24fb01c7a, (-48));
   (0x139f152d0f5470, (-48));
   (0x12f9422c23c47d, (-48));
   (0x123f8fc68ae52b, (-48));
   (0x116f8334644df8, (-48));
   (0x1085d06e1f0517, (-48));
   (0x1efbdeb14f4ed9, (-49));
   (0x1ca2b9714180f6, (-49));
   (0x19ec474a261263, (-49));
   (0x16b733bfd8c648, (-49));
   (0x12c2fc595456a6, (-49));
   (0x1ad5336963eefb, (-50));
   (0x0, 0);
   (0x1b211b1c70d023, (-50));
   (0x12f9422c23c47d, (-49));
   (0x16fa6ea162d0f0, (-49));
   (0x1a3ad12a1da160, (-49));
   (0x1cfb95bb9dcc0c, (-49));
   (0x1f5e67fdcbdf43, (-49));
   (0x10bbb307acafda, (-48));
   (0x11a9dc8f6df103, (-48));
   (0x127e451bb944c3, (-48));
   (0x133c42213ee0c9, (-48));
   (0x13e655eefe1367, (-48));
   (0x147e7054af0989, (-48));
   (0x1506177f5491ba, (-48));
   (0x157e82ecdabe8c, (-48));
   (0x15e8add236a58e, (-48));
   (0x1645640568c1c3, (-48));
   (0x16954b41cd4293, (-48));
   (0x16d8e9eb365353, (-48));
   (0x1710ac0b5e5e31, (-48));
   (0x173ce704fb7b23, (-48));
   (0x175ddc4efa914a, (-48));
   (0x1773bb6fa96c50, (-48));
   (0x177ea35d632e43, (-48));
   (0x177ea35d632e43, (-48));
   (0x1773bb6fa96c50, (-48));
   (0x175ddc4efa914a, (-48));
   (0x173ce704fb7b23, (-48));
   (0x1710ac0b5e5e31, (-48));
   (0x16d8e9eb365353, (-48));
   (0x16954b41cd4293, (-48));
   (0x1645640568c1c3, (-48));
   (0x15e8add236a58e, (-48));
   (0x157e82ecdabe8c, (-48));
   (0x1506177f5491ba, (-48));
   (0x147e7054af0989, (-48));
   (0x13e655eefe1367, (-48));
   (0x133c42213ee0c9, (-48));
   (0x127e451bb944c3, (-48));
   (0x11a9dc8f6df103, (-48));
   (0x10bbb307acafda, (-48));
   (0x1f5e67fdcbdf43, (-49));
   (0x1cfb95bb9dcc0c, (-49));
   (0x1a3ad12a1da160, (-49));
   (0x16fa6ea162d0f0, (-49));
   (0x12f9422c23c47d, (-49));
   (0x1b211b1c70d023, (-50));
   (0x0, 0);
   (0x1b6c30b83593e6, (-50));
   (0x132eee75770416, (-49));
   (0x173ce704fb7b23, (-49));
   (0x1a887293fd6f34, (-49));
   (0x1d5364c8cb8f86, (-49));
   (0x1fbfbf7ebc755e, (-49));
   (0x10f0ea3f9397ce, (-48));
   (0x11e3779b97f4a7, (-48));
   (0x12bc2891041ea7, (-48));
   (0x137e5bd40f95a1, (-48));
   (0x142c9b0eec7da3, (-48));
   (0x14c8dc2e42397f, (-48));
   (0x1554aaa7ffeaa9, (-48));
   (0x15d142b6dbadc5, (-48));
   (0x163fa3f3c02961, (-48));
   (0x16a09e667f3bcc, (-48));
   (0x16f4dbe9105e51, (-48));
   (0x173ce704fb7b23, (-48));
   (0x17793008ab5d3e, (-48));
   (0x17aa10d193c22c, (-48));
   (0x17cfcf9f0d5806, (-48));
   (0x17eaa126f15283, (-48));
   (0x17faaa12d4c51c, (-48));
   (0x18000000000000, (-48));
   (0x17faaa12d4c51c, (-48));
   (0x17eaa126f15283, (-48));
   (0x17cfcf9f0d5806, (-48));
   (0x17aa10d193c22c, (-48));
   (0x17793008ab5d3e, (-48));
   (0x173ce704fb7b23, (-48));
   (0x16f4dbe9105e51, (-48));
   (0x16a09e667f3bcc, (-48));
   (0x163fa3f3c02961, (-48));
   (0x15d142b6dbadc5, (-48));
   (0x1554aaa7ffeaa9, (-48));
   (0x14c8dc2e42397f, (-48));
   (0x142c9b0eec7da3, (-48));
   (0x137e5bd40f95a1, (-48));
   (0x12bc2891041ea7, (-48));
   (0x11e3779b97f4a7, (-48));
   (0x10f0ea3f9397ce, (-48));
   (0x1fbfbf7ebc755e, (-49));
   (0x1d5364c8cb8f86, (-49));
   (0x1a887293fd6f34, (-49));
   (0x173ce704fb7b23, (-49));
   (0x132eee75770416, (-49));
   (0x1b6c30b83593e6, (-50));
   (0x0, 0);
   (0x1bb67ae8584caa, (-50));
   (0x13640630445305, (-49));
   (0x177ea35d632e43, (-49));
   (0x1ad5336963eefb, (-49));
   (0x1daa2fefaae1d7, (-49));
   (0x100ff807f60deb, (-48));
   (0x11257c5187fd08, (-48));
   (0x121c5b70d9f823, (-48));
   (0x12f9422c23c47d, (-48));
   (0x13bf984cb56c77, (-48));
   (0x1471eeaf76c2c6, (-48));
   (0x151241356cf6e0, (-48));
   (0x15a22073490376, (-48));
   (0x1622cd337f0fe8, (-48));
   (0x16954b41cd4293, (-48));
   (0x16fa6ea162d0f0, (-48));
   (0x1752e50db3a3a1, (-48));
   (0x179f3cf0a9fb4d, (-48));
   (0x17dfea8e092211, (-48));
   (0x18154be2773525, (-48));
   (0x183fab8b4d4315, (-48));
   (0x185f42f1521411, (-48));
   (0x18743bde58000c, (-48));
   (0x187eb1990b697a, (-48));
   (0x187eb1990b697a, (-48));
   (0x18743bde58000c, (-48));
   (0x185f42f1521411, (-48));
   (0x183fab8b4d4315, (-48));
   (0x18154be2773525, (-48));
   (0x17dfea8e092211, (-48));
   (0x179f3cf0a9fb4d, (-48));
   (0x1752e50db3a3a1, (-48));
   (0x16fa6ea162d0f0, (-48));
   (0x16954b41cd4293, (-48));
   (0x1622cd337f0fe8, (-48));
   (0x15a22073490376, (-48));
   (0x151241356cf6e0, (-48));
   (0x1471eeaf76c2c6, (-48));
   (0x13bf984cb56c77, (-48));
   (0x12f9422c23c47d, (-48));
   (0x121c5b70d9f823, (-48));
   (0x11257c5187fd08, (-48));
   (0x100ff807f60deb, (-48));
   (0x1daa2fefaae1d7, (-49));
   (0x1ad5336963eefb, (-49));
   (0x177ea35d632e43, (-49));
   (0x13640630445305, (-49));
   (0x1bb67ae8584caa, (-50));
   (0x0, 0);
   (0x1c000000000000, (-50));
   (0x13988e1409212e, (-49));
   (0x17bfa9c41ab040, (-49));
   (0x1b211b1c70d023, (-49));
   (0x1e000000000000, (-49));
   (0x103f81f636b80b, (-48));
   (0x11596f1acc669b, (-48));
   (0x12548eb9151e85, (-48));
   (0x1335997337ff40, (-48));
   (0x14000000000000, (-48));
   (0x14b65a49968d7e, (-48));
   (0x155aaa002a9d59, (-48));
   (0x15ee84b0d1f875, (-48));
   (0x16732f8d0e2f76, (-48));
   (0x16e9b2675a6626, (-48));
   (0x1752e50db3a3a1, (-48));
   (0x17af78e6da9b30, (-48));
   (0x18000000000000, (-48));
   (0x1844f24cb4e434, (-48));
   (0x187eb1990b697a, (-48));
   (0x18ad8c842be9b4, (-48));
   (0x18d1c0be7f20ab, (-48));
   (0x18eb7cb456380d, (-48));
   (0x18fae0c15ad389, (-48));
   (0x19000000000000, (-48));
   (0x18fae0c15ad389, (-48));
   (0x18eb7cb456380d, (-48));
   (0x18d1c0be7f20ab, (-48));
   (0x18ad8c842be9b4, (-48));
   (0x187eb1990b697a, (-48));
   (0x1844f24cb4e434, (-48));
   (0x18000000000000, (-48));
   (0x17af78e6da9b30, (-48));
   (0x1752e50db3a3a1, (-48));
   (0x16e9b2675a6626, (-48));
   (0x16732f8d0e2f76, (-48));
   (0x15ee84b0d1f875, (-48));
   (0x155aaa002a9d59, (-48));
   (0x14b65a49968d7e, (-48));
   (0x14000000000000, (-48));
   (0x1335997337ff40, (-48));
   (0x12548eb9151e85, (-48));
   (0x11596f1acc669b, (-48));
   (0x103f81f636b80b, (-48));
   (0x1e000000000000, (-49));
   (0x1b211b1c70d023, (-49));
   (0x17bfa9c41ab040, (-49));
   (0x13988e1409212e, (-49));
   (0x1c000000000000, (-50));
   (0x0, 0);
   (0x1c48c6001f0abf, (-50));
   (0x13cc8a99af5452, (-49));
   (0x18000000000000, (-49));
   (0x1b6c30b83593e6, (-49));
   (0x1e54dd4ce75f1d, (-49));
   (0x106e825da8fc2b, (-48));
   (0x118cc821d6d3e2, (-48));
   (0x128c17b9337833, (-48));
   (0x137135779c8dca, (-48));
   (0x143f9adc3f79ce, (-48));
   (0x14f9e6bbc4ecb3, (-48));
   (0x15a22073490376, (-48));
   (0x1639e2653e421a, (-48));
   (0x16c276054ecf78, (-48));
   (0x173ce704fb7b23, (-48));
   (0x17aa10d193c22c, (-48));
   (0x180aa84ce72f89, (-48));
   (0x185f42f1521411, (-48));
   (0x18a85c24f70659, (-48));
   (0x18e6593d77b0b7, (-48));
   (0x19198c8b8307c8, (-48));
   (0x194237aa3e0749, (-48));
   (0x19608d3c41fb4b, (-48));
   (0x1974b2334f2346, (-48));
   (0x197ebeb6d6bbf3, (-48));
   (0x197ebeb6d6bbf3, (-48));
   (0x1974b2334f2346, (-48));
   (0x19608d3c41fb4b, (-48));
   (0x194237aa3e0749, (-48));
   (0x19198c8b8307c8, (-48));
   (0x18e6593d77b0b7, (-48));
   (0x18a85c24f70659, (-48));
   (0x185f42f1521411, (-48));
   (0x180aa84ce72f89, (-48));
   (0x17aa10d193c22c, (-48));
   (0x173ce704fb7b23, (-48));
   (0x16c276054ecf78, (-48));
   (0x1639e2653e421a, (-48));
   (0x15a22073490376, (-48));
   (0x14f9e6bbc4ecb3, (-48));
   (0x143f9adc3f79ce, (-48));
   (0x137135779c8dca, (-48));
   (0x128c17b9337833, (-48));
   (0x118cc821d6d3e2, (-48));
   (0x106e825da8fc2b, (-48));
   (0x1e54dd4ce75f1d, (-49));
   (0x1b6c30b83593e6, (-49));
   (0x18000000000000, (-49));
   (0x13cc8a99af5452, (-49));
   (0x1c48c6001f0abf, (-50));
   (0x0, 0);
   (0x1c90d29d2d43cd, (-50));
   (0x14000000000000, (-49));
   (0x183fab8b4d4315, (-49));
   (0x1bb67ae8584caa, (-49));
   (0x1ea8cfb64547ab, (-49));
   (0x109cfdcd8ed008, (-48));
   (0x11bf8c9d2ed1a1, (-48));
   (0x12c2fc595456a6, (-48));
   (0x13ac1cdf963908, (-48));
   (0x147e7054af0989, (-48));
   (0x153c9c576aef0a, (-48));
   (0x15e8add236a58e, (-48));
   (0x168443dcc7be4a, (-48));
   (0x1710ac0b5e5e31, (-48));
   (0x178ef5ca97b3c7, (-48));
   (0x18000000000000, (-48));
   (0x186482dd565021, (-48));
   (0x18bd171a07e38a, (-48));
   (0x190a3b58a0599b, (-48));
   (0x194c583ada5b52, (-48));
   (0x1983c37ca9aa04, (-48));
   (0x19b0c25315c2cd, (-48));
   (0x19d38b395ad1b2, (-48));
   (0x19ec474a261263, (-48));
   (0x19fb1339d2c7df, (-48));
   (0x1a000000000000, (-48));
   (0x19fb1339d2c7df, (-48));
   (0x19ec474a261263, (-48));
   (0x19d38b395ad1b2, (-48));
   (0x19b0c25315c2cd, (-48));
   (0x1983c37ca9aa04, (-48));
   (0x194c583ada5b52, (-48));
   (0x190a3b58a0599b, (-48));
   (0x18bd171a07e38a, (-48));
   (0x186482dd565021, (-48));
   (0x18000000000000, (-48));
   (0x178ef5ca97b3c7, (-48));
   (0x1710ac0b5e5e31, (-48));
   (0x168443dcc7be4a, (-48));
   (0x15e8add236a58e, (-48));
   (0x153c9c576aef0a, (-48));
   (0x147e7054af0989, (-48));
   (0x13ac1cdf963908, (-48));
   (0x12c2fc595456a6, (-48));
   (0x11bf8c9d2ed1a1, (-48));
   (0x109cfdcd8ed008, (-48));
   (0x1ea8cfb64547ab, (-49));
   (0x1bb67ae8584caa, (-49));
   (0x183fab8b4d4315, (-49));
   (0x14000000000000, (-49));
   (0x1c90d29d2d43cd, (-50));
   (0x0, 0);
   (0x1cd82b446159f3, (-50));
   (0x1432f24fb01c7a, (-49));
   (0x187eb1990b697a, (-49));
   (0x1c000000000000, (-49));
   (0x1efbdeb14f4ed9, (-49));
   (0x10caf8960e710d, (-48));
   (0x11f1c1799ca8fe, (-48));
   (0x12f9422c23c47d, (-48));
   (0x13e655eefe1367, (-48));
   (0x14bc876ba7f6ec, (-48));
   (0x157e82ecdabe8c, (-48));
   (0x162e5acd0c3ebd, (-48));
   (0x16cdb2bbb212eb, (-48));
   (0x175ddc4efa914a, (-48));
   (0x17dfea8e092211, (-48));
   (0x1854bfb363dc39, (-48));
   (0x18bd171a07e38a, (-48));
   (0x19198c8b8307c8, (-48));
   (0x196aa1b6b0ec77, (-48));
   (0x19b0c25315c2cd, (-48));
   (0x19ec474a261263, (-48));
   (0x1a1d79241626a3, (-48));
   (0x1a4491e34f47d9, (-48));
   (0x1a61be6cfec996, (-48));
   (0x1a751f9447b724, (-48));
   (0x1a7ecad724e985, (-48));
   (0x1a7ecad724e985, (-48));
   (0x1a751f9447b724, (-48));
   (0x1a61be6cfec996, (-48));
   (0x1a4491e34f47d9, (-48));
   (0x1a1d79241626a3, (-48));
   (0x19ec474a261263, (-48));
   (0x19b0c25315c2cd, (-48));
   (0x196aa1b6b0ec77, (-48));
   (0x19198c8b8307c8, (-48));
   (0x18bd171a07e38a, (-48));
   (0x1854bfb363dc39, (-48));
   (0x17dfea8e092211, (-48));
   (0x175ddc4efa914a, (-48));
   (0x16cdb2bbb212eb, (-48));
   (0x162e5acd0c3ebd, (-48));
   (0x157e82ecdabe8c, (-48));
   (0x14bc876ba7f6ec, (-48));
   (0x13e655eefe1367, (-48));
   (0x12f9422c23c47d, (-48));
   (0x11f1c1799ca8fe, (-48));
   (0x10caf8960e710d, (-48));
   (0x1efbdeb14f4ed9, (-49));
   (0x1c000000000000, (-49));
   (0x187eb1990b697a, (-49));
   (0x1432f24fb01c7a, (-49));
   (0x1cd82b446159f3, (-50));
   (0x0, 0);
   (0x1d1ed52076fbe9, (-50));
   (0x1465655f122ff6, (-49));
   (0x18bd171a07e38a, (-49));
   (0x1c48c6001f0abf, (-49));
   (0x1f4e115049ec25, (-49));
   (0x10f876ccdf6cd9, (-48));
   (0x12236b5fbe7711, (-48));
   (0x132eee75770416, (-48));
   (0x141fe68f0af33c, (-48));
   (0x14f9e6bbc4ecb3, (-48));
   (0x15bfa1d602241b, (-48));
   (0x16732f8d0e2f76, (-48));
   (0x1716380ce70399, (-48));
   (0x17aa10d193c22c, (-48));
   (0x182fd05f129838, (-48));
   (0x18a85c24f70659, (-48));
   (0x19147284a41447, (-48));
   (0x1974b2334f2346, (-48));
   (0x19c99fc141b430, (-48));
   (0x1a13a9cb996650, (-48));
   (0x1a532c32c23dd4, (-48));
   (0x1a887293fd6f34, (-48));
   (0x1ab3ba31acd8eb, (-48));
   (0x1ad5336963eefb, (-48));
   (0x1aed02cdd31070, (-48));
   (0x1afb41f432002d, (-48));
   (0x1b000000000000, (-48));
   (0x1afb41f432002d, (-48));
   (0x1aed02cdd31070, (-48));
   (0x1ad5336963eefb, (-48));
   (0x1ab3ba31acd8eb, (-48));
   (0x1a887293fd6f34, (-48));
   (0x1a532c32c23dd4, (-48));
   (0x1a13a9cb996650, (-48));
   (0x19c99fc141b430, (-48));
   (0x1974b2334f2346, (-48));
   (0x19147284a41447, (-48));
   (0x18a85c24f70659, (-48));
   (0x182fd05f129838, (-48));
   (0x17aa10d193c22c, (-48));
   (0x1716380ce70399, (-48));
   (0x16732f8d0e2f76, (-48));
   (0x15bfa1d602241b, (-48));
   (0x14f9e6bbc4ecb3, (-48));
   (0x141fe68f0af33c, (-48));
   (0x132eee75770416, (-48));
   (0x12236b5fbe7711, (-48));
   (0x10f876ccdf6cd9, (-48));
   (0x1f4e115049ec25, (-49));
   (0x1c48c6001f0abf, (-49));
   (0x18bd171a07e38a, (-49));
   (0x1465655f122ff6, (-49));
   (0x1d1ed52076fbe9, (-50));
   (0x0, 0);
   (0x1d64d51e0db1c5, (-50));
   (0x14975cd5768087, (-49));
   (0x18fae0c15ad389, (-49));
   (0x1c90d29d2d43cd, (-49));
   (0x1f9f6e4990f227, (-49));
   (0x11257c5187fd08, (-48));
   (0x12548eb9151e85, (-48));
   (0x13640630445305, (-48));
   (0x1458d455549c1a, (-48));
   (0x1536948017480f, (-48));
   (0x16000000000000, (-48));
   (0x16b733bfd8c648, (-48));
   (0x175ddc4efa914a, (-48));
   (0x17f552f5767564, (-48));
   (0x187eb1990b697a, (-48));
   (0x18fae0c15ad389, (-48));
   (0x196aa1b6b0ec77, (-48));
   (0x19ce95f75281f5, (-48));
   (0x1a2744ce9674f4, (-48));
   (0x1a751f9447b724, (-48));
   (0x1ab884ef702283, (-48));
   (0x1af1c35b8c8d9f, (-48));
   (0x1b211b1c70d023, (-48));
   (0x1b46bfc05aeb89, (-48));
   (0x1b62d946c44ef2, (-48));
   (0x1b7584fc155353, (-48));
   (0x1b7ed6159fadc7, (-48));
   (0x1b7ed6159fadc7, (-48));
   (0x1b7584fc155353, (-48));
   (0x1b62d946c44ef2, (-48));
   (0x1b46bfc05aeb89, (-48));
   (0x1b211b1c70d023, (-48));
   (0x1af1c35b8c8d9f, (-48));
   (0x1ab884ef702283, (-48));
   (0x1a751f9447b724, (-48));
   (0x1a2744ce9674f4, (-48));
   (0x19ce95f75281f5, (-48));
   (0x196aa1b6b0ec77, (-48));
   (0x18fae0c15ad389, (-48));
   (0x187eb1990b697a, (-48));
   (0x17f552f5767564, (-48));
   (0x175ddc4efa914a, (-48));
   (0x16b733bfd8c648, (-48));
   (0x16000000000000, (-48));
   (0x1536948017480f, (-48));
   (0x1458d455549c1a, (-48));
   (0x13640630445305, (-48));
   (0x12548eb9151e85, (-48));
   (0x11257c5187fd08, (-48));
   (0x1f9f6e4990f227, (-49));
   (0x1c90d29d2d43cd, (-49));
   (0x18fae0c15ad389, (-49));
   (0x14975cd5768087, (-49));
   (0x1d64d51e0db1c5, (-50));
   (0x0, 0);
   (0x1daa2fefaae1d7, (-50));
   (0x14c8dc2e42397f, (-49));
   (0x193813088978c4, (-49));
   (0x1cd82b446159f3, (-49));
   (0x1feffbfdfebf1f, (-49));
   (0x11520cd1372fea, (-48));
   (0x12852fb49899cc, (-48));
   (0x13988e1409212e, (-48));
   (0x1491248a282eec, (-48));
   (0x1572969b8b5cd8, (-48));
   (0x163fa3f3c02961, (-48));
   (0x16fa6ea162d0f0, (-48));
   (0x17a4a77fcc0e4b, (-48));
   (0x183fab8b4d4315, (-48));
   (0x18cc97f2912db5, (-48));
   (0x194c583ada5b52, (-48));
   (0x19bfb076d236ea, (-48));
   (0x1a2744ce9674f4, (-48));
   (0x1a839f261422cd, (-48));
   (0x1ad5336963eefb, (-48));
   (0x1b1c62db2564fe, (-48));
   (0x1b597ea47fdda2, (-48));
   (0x1b8cc9d3952a45, (-48));
   (0x1bb67ae8584caa, (-48));
   (0x1bd6bd06c2f234, (-48));
   (0x1bedb0defaf661, (-48));
   (0x1bfb6d57433c58, (-48));
   (0x1c000000000000, (-48));
   (0x1bfb6d57433c58, (-48));
   (0x1bedb0defaf661, (-48));
   (0x1bd6bd06c2f234, (-48));
   (0x1bb67ae8584caa, (-48));
   (0x1b8cc9d3952a45, (-48));
   (0x1b597ea47fdda2, (-48));
   (0x1b1c62db2564fe, (-48));
   (0x1ad5336963eefb, (-48));
   (0x1a839f261422cd, (-48));
   (0x1a2744ce9674f4, (-48));
   (0x19bfb076d236ea, (-48));
   (0x194c583ada5b52, (-48));
   (0x18cc97f2912db5, (-48));
   (0x183fab8b4d4315, (-48));
   (0x17a4a77fcc0e4b, (-48));
   (0x16fa6ea162d0f0, (-48));
   (0x163fa3f3c02961, (-48));
   (0x1572969b8b5cd8, (-48));
   (0x1491248a282eec, (-48));
   (0x13988e1409212e, (-48));
   (0x12852fb49899cc, (-48));
   (0x11520cd1372fea, (-48));
   (0x1feffbfdfebf1f, (-49));
   (0x1cd82b446159f3, (-49));
   (0x193813088978c4, (-49));
   (0x14c8dc2e42397f, (-49));
   (0x1daa2fefaae1d7, (-50));
   (0x0, 0);
   (0x1deeea11683f49, (-50));
   (0x14f9e6bbc4ecb3, (-49));
   (0x1974b2334f2346, (-49));
   (0x1d1ed52076fbe9, (-49));
   (0x101fe03f61bad0, (-48));
   (0x117e2bca46bab9, (-48));
   (0x12b5524ae1278d, (-48));
   (0x13cc8a99af5452, (-48));
   (0x14c8dc2e42397f, (-48));
   (0x15adf29f948cfa, (-48));
   (0x167e93ddbc0e72, (-48));
   (0x173ce704fb7b23, (-48));
   (0x17eaa126f15283, (-48));
   (0x188922de324cbe, (-48));
   (0x19198c8b8307c8, (-48));
   (0x199ccc999fff00, (-48));
   (0x1a13a9cb996650, (-48));
   (0x1a7ecad724e985, (-48));
   (0x1adebc19b71702, (-48));
   (0x1b33f3f1490dee, (-48));
   (0x1b7ed6159fadc7, (-48));
   (0x1bbfb6325af96a, (-48));
   (0x1bf6d9ef178c07, (-48));
   (0x1c247a85fe81fa, (-48));
   (0x1c48c6001f0abf, (-48));
   (0x1c63e02881cc54, (-48));
   (0x1c75e34235a6bc, (-48));
   (0x1c7ee08a0e6d4c, (-48));
   (0x1c7ee08a0e6d4c, (-48));
   (0x1c75e34235a6bc, (-48));
   (0x1c63e02881cc54, (-48));
   (0x1c48c6001f0abf, (-48));
   (0x1c247a85fe81fa, (-48));
   (0x1bf6d9ef178c07, (-48));
   (0x1bbfb6325af96a, (-48));
   (0x1b7ed6159fadc7, (-48));
   (0x1b33f3f1490dee, (-48));
   (0x1adebc19b71702, (-48));
   (0x1a7ecad724e985, (-48));
   (0x1a13a9cb996650, (-48));
   (0x199ccc999fff00, (-48));
   (0x19198c8b8307c8, (-48));
   (0x188922de324cbe, (-48));
   (0x17eaa126f15283, (-48));
   (0x173ce704fb7b23, (-48));
   (0x167e93ddbc0e72, (-48));
   (0x15adf29f948cfa, (-48));
   (0x14c8dc2e42397f, (-48));
   (0x13cc8a99af5452, (-48));
   (0x12b5524ae1278d, (-48));
   (0x117e2bca46bab9, (-48));
   (0x101fe03f61bad0, (-48));
   (0x1d1ed52076fbe9, (-49));
   (0x1974b2334f2346, (-49));
   (0x14f9e6bbc4ecb3, (-49));
   (0x1deeea11683f49, (-50));
   (0x0, 0);
   (0x1e3307cc56cf5b, (-50));
   (0x152a7fa9d2f8e9, (-49));
   (0x19b0c25315c2cd, (-49));
   (0x1d64d51e0db1c5, (-49));
   (0x104760c95db310, (-48));
   (0x11a9dc8f6df103, (-48));
   (0x12e4fa41f10c9a, (-48));
   (0x14000000000000, (-48));
   (0x15000000000000, (-48));
   (0x15e8add236a58e, (-48));
   (0x16bcd594fa2a99, (-48));
   (0x177ea35d632e43, (-48));
   (0x182fd05f129838, (-48));
   (0x18d1c0be7f20ab, (-48));
   (0x196597f97f8aa8, (-48));
   (0x19ec474a261263, (-48));
   (0x1a66980c3ad1bd, (-48));
   (0x1ad5336963eefb, (-48));
   (0x1b38a81c8a0a22, (-48));
   (0x1b916ed68964ec, (-48));
   (0x1bdfeda1d7824a, (-48));
   (0x1c247a85fe81fa, (-48));
   (0x1c5f5d98afcebe, (-48));
   (0x1c90d29d2d43cd, (-48));
   (0x1cb90a49bb852c, (-48));
   (0x1cd82b446159f3, (-48));
   (0x1cee52e38987e0, (-48));
   (0x1cfb95bb9dcc0c, (-48));
   (0x1d000000000000, (-48));
   (0x1cfb95bb9dcc0c, (-48));
   (0x1cee52e38987e0, (-48));
   (0x1cd82b446159f3, (-48));
   (0x1cb90a49bb852c, (-48));
   (0x1c90d29d2d43cd, (-48));
   (0x1c5f5d98afcebe, (-48));
   (0x1c247a85fe81fa, (-48));
   (0x1bdfeda1d7824a, (-48));
   (0x1b916ed68964ec, (-48));
   (0x1b38a81c8a0a22, (-48));
   (0x1ad5336963eefb, (-48));
   (0x1a66980c3ad1bd, (-48));
   (0x19ec474a261263, (-48));
   (0x196597f97f8aa8, (-48));
   (0x18d1c0be7f20ab, (-48));
   (0x182fd05f129838, (-48));
   (0x177ea35d632e43, (-48));
   (0x16bcd594fa2a99, (-48));
   (0x15e8add236a58e, (-48));
   (0x15000000000000, (-48));
   (0x14000000000000, (-48));
   (0x12e4fa41f10c9a, (-48));
   (0x11a9dc8f6df103, (-48));
   (0x104760c95db310, (-48));
   (0x1d64d51e0db1c5, (-49));
   (0x19b0c25315c2cd, (-49));
   (0x152a7fa9d2f8e9, (-49));
   (0x1e3307cc56cf5b, (-50));
   (0x0, 0);
   (0x1e768d399dc46f, (-50));
   (0x155aaa002a9d59, (-49));
   (0x19ec474a261263, (-49));
   (0x1daa2fefaae1d7, (-49));
   (0x106e825da8fc2b, (-48));
   (0x11d5224aae2ee1, (-48));
   (0x13142b30a929ab, (-48));
   (0x1432f24fb01c7a, (-48));
   (0x1536948017480f, (-48));
   (0x1622cd337f0fe8, (-48));
   (0x16fa6ea162d0f0, (-48));
   (0x17bfa9c41ab040, (-48));
   (0x18743bde58000c, (-48));
   (0x19198c8b8307c8, (-48));
   (0x19b0c25315c2cd, (-48));
   (0x1a3ad12a1da160, (-48));
   (0x1ab884ef702283, (-48));
   (0x1b2a892946f435, (-48));
   (0x1b916ed68964ec, (-48));
   (0x1bedb0defaf661, (-48));
   (0x1c3fb780c4f583, (-48));
   (0x1c87dafcd266fd, (-48));
   (0x1cc665b0328621, (-48));
   (0x1cfb95bb9dcc0c, (-48));
   (0x1d279e51208c8a, (-48));
   (0x1d4aa8b979af2e, (-48));
   (0x1d64d51e0db1c5, (-48));
   (0x1d763b20d435ef, (-48));
   (0x1d7eea48fed23f, (-48));
   (0x1d7eea48fed23f, (-48));
   (0x1d763b20d435ef, (-48));
   (0x1d64d51e0db1c5, (-48));
   (0x1d4aa8b979af2e, (-48));
   (0x1d279e51208c8a, (-48));
   (0x1cfb95bb9dcc0c, (-48));
   (0x1cc665b0328621, (-48));
   (0x1c87dafcd266fd, (-48));
   (0x1c3fb780c4f583, (-48));
   (0x1bedb0defaf661, (-48));
   (0x1b916ed68964ec, (-48));
   (0x1b2a892946f435, (-48));
   (0x1ab884ef702283, (-48));
   (0x1a3ad12a1da160, (-48));
   (0x19b0c25315c2cd, (-48));
   (0x19198c8b8307c8, (-48));
   (0x18743bde58000c, (-48));
   (0x17bfa9c41ab040, (-48));
   (0x16fa6ea162d0f0, (-48));
   (0x1622cd337f0fe8, (-48));
   (0x1536948017480f, (-48));
   (0x1432f24fb01c7a, (-48));
   (0x13142b30a929ab, (-48));
   (0x11d5224aae2ee1, (-48));
   (0x106e825da8fc2b, (-48));
   (0x1daa2fefaae1d7, (-49));
   (0x19ec474a261263, (-49));
   (0x155aaa002a9d59, (-49));
   (0x1e768d399dc46f, (-50));
   (0x0, 0);
   (0x1eb97e455b9edb, (-50));
   (0x158a68a4a8d9f3, (-49));
   (0x1a2744ce9674f4, (-49));
   (0x1deeea11683f49, (-49));
   (0x1095479c7e6580, (-48));
   (0x12000000000000, (-48));
   (0x1342e881f15cc1, (-48));
   (0x1465655f122ff6, (-48));
   (0x156c9df5e1f2da, (-48));
   (0x165c55827df1d1, (-48));
   (0x173764417dc14d, (-48));
   (0x18000000000000, (-48));
   (0x18b7e9fe051728, (-48));
   (0x19608d3c41fb4b, (-48));
   (0x19fb1339d2c7df, (-48));
   (0x1a887293fd6f34, (-48));
   (0x1b097998c4bf81, (-48));
   (0x1b7ed6159fadc7, (-48));
   (0x1be91b364d1879, (-48));
   (0x1c48c6001f0abf, (-48));
   (0x1c9e40c8fdbe80, (-48));
   (0x1ce9e5ec2bda7f, (-48));
   (0x1d2c01eb6e9763, (-48));
   (0x1d64d51e0db1c5, (-48));
   (0x1d949505f8b2b8, (-48));
   (0x1dbb6d5ce3a42e, (-48));
   (0x1dd980e67d1d1a, (-48));
   (0x1deeea11683f49, (-48));
   (0x1dfbbb6e049232, (-48));
   (0x1e000000000000, (-48));
   (0x1dfbbb6e049232, (-48));
   (0x1deeea11683f49, (-48));
   (0x1dd980e67d1d1a, (-48));
   (0x1dbb6d5ce3a42e, (-48));
   (0x1d949505f8b2b8, (-48));
   (0x1d64d51e0db1c5, (-48));
   (0x1d2c01eb6e9763, (-48));
   (0x1ce9e5ec2bda7f, (-48));
   (0x1c9e40c8fdbe80, (-48));
   (0x1c48c6001f0abf, (-48));
   (0x1be91b364d1879, (-48));
   (0x1b7ed6159fadc7, (-48));
   (0x1b097998c4bf81, (-48));
   (0x1a887293fd6f34, (-48));
   (0x19fb1339d2c7df, (-48));
   (0x19608d3c41fb4b, (-48));
   (0x18b7e9fe051728, (-48));
   (0x18000000000000, (-48));
   (0x173764417dc14d, (-48));
   (0x165c55827df1d1, (-48));
   (0x156c9df5e1f2da, (-48));
   (0x1465655f122ff6, (-48));
   (0x1342e881f15cc1, (-48));
   (0x12000000000000, (-48));
   (0x1095479c7e6580, (-48));
   (0x1deeea11683f49, (-49));
   (0x1a2744ce9674f4, (-49));
   (0x158a68a4a8d9f3, (-49));
   (0x1eb97e455b9edb, (-50));
   (0x0, 0);
   (0x1efbdeb14f4ed9, (-50));
   (0x15b9be5d52a9da, (-49));
   (0x1a61be6cfec996, (-49));
   (0x1e3307cc56cf5b, (-49));
   (0x10bbb307acafda, (-48));
   (0x122a788fc76de5, (-48));
   (0x137135779c8dca, (-48));
   (0x14975cd5768087, (-48));
   (0x15a22073490376, (-48));
   (0x16954b41cd4293, (-48));
   (0x1773bb6fa96c50, (-48));
   (0x183fab8b4d4315, (-48));
   (0x18fae0c15ad389, (-48));
   (0x19a6c96759af48, (-48));
   (0x1a4491e34f47d9, (-48));
   (0x1ad5336963eefb, (-48));
   (0x1b597ea47fdda2, (-48));
   (0x1bd22395cd344d, (-48));
   (0x1c3fb780c4f583, (-48));
   (0x1ca2b9714180f6, (-48));
   (0x1cfb95bb9dcc0c, (-48));
   (0x1d4aa8b979af2e, (-48));
   (0x1d9040f230cfdf, (-48));
   (0x1dcca0d0cbf408, (-48));
   (0x1e000000000000, (-48));
   (0x1e2a8c7e4a7c85, (-48));
   (0x1e4c6b77882ab7, (-48));
   (0x1e65b9edeba38d, (-48));
   (0x1e768d399dc46f, (-48));
   (0x1e7ef3644c3931, (-48));
   (0x1e7ef3644c3931, (-48));
   (0x1e768d399dc46f, (-48));
   (0x1e65b9edeba38d, (-48));
   (0x1e4c6b77882ab7, (-48));
   (0x1e2a8c7e4a7c85, (-48));
   (0x1e000000000000, (-48));
   (0x1dcca0d0cbf408, (-48));
   (0x1d9040f230cfdf, (-48));
   (0x1d4aa8b979af2e, (-48));
   (0x1cfb95bb9dcc0c, (-48));
   (0x1ca2b9714180f6, (-48));
   (0x1c3fb780c4f583, (-48));
   (0x1bd22395cd344d, (-48));
   (0x1b597ea47fdda2, (-48));
   (0x1ad5336963eefb, (-48));
   (0x1a4491e34f47d9, (-48));
   (0x19a6c96759af48, (-48));
   (0x18fae0c15ad389, (-48));
   (0x183fab8b4d4315, (-48));
   (0x1773bb6fa96c50, (-48));
   (0x16954b41cd4293, (-48));
   (0x15a22073490376, (-48));
   (0x14975cd5768087, (-48));
   (0x137135779c8dca, (-48));
   (0x122a788fc76de5, (-48));
   (0x10bbb307acafda, (-48));
   (0x1e3307cc56cf5b, (-49));
   (0x1a61be6cfec996, (-49));
   (0x15b9be5d52a9da, (-49));
   (0x1efbdeb14f4ed9, (-50));
   (0x0, 0);
   (0x1f3db2174e7468, (-50));
   (0x15e8add236a58e, (-49));
   (0x1a9bb78af6cabc, (-49));
   (0x1e768d399dc46f, (-49));
   (0x10e1c7047b3b50, (-48));
   (0x12548eb9151e85, (-48));
   (0x139f152d0f5470, (-48));
   (0x14c8dc2e42397f, (-48));
   (0x15d71fd8593cee, (-48));
   (0x16cdb2bbb212eb, (-48));
   (0x17af78e6da9b30, (-48));
   (0x187eb1990b697a, (-48));
   (0x193d25dbd52eb4, (-48));
   (0x19ec474a261263, (-48));
   (0x1a8d45215b8101, (-48));
   (0x1b211b1c70d023, (-48));
   (0x1ba89c325845e7, (-48));
   (0x1c247a85fe81fa, (-48));
   (0x1c954d5f47c90f, (-48));
   (0x1cfb95bb9dcc0c, (-48));
   (0x1d57c1d6d9269e, (-48));
   (0x1daa2fefaae1d7, (-48));
   (0x1df33076fb584a, (-48));
   (0x1e3307cc56cf5b, (-48));
   (0x1e69efa03cd347, (-48));
   (0x1e98180e9b47f1, (-48));
   (0x1ebda87f068e4d, (-48));
   (0x1edac054c8f94c, (-48));
   (0x1eef77764a2c09, (-48));
   (0x1efbdeb14f4ed9, (-48));
   (0x1f000000000000, (-48));
   (0x1efbdeb14f4ed9, (-48));
   (0x1eef77764a2c09, (-48));
   (0x1edac054c8f94c, (-48));
   (0x1ebda87f068e4d, (-48));
   (0x1e98180e9b47f1, (-48));
   (0x1e69efa03cd347, (-48));
   (0x1e3307cc56cf5b, (-48));
   (0x1df33076fb584a, (-48));
   (0x1daa2fefaae1d7, (-48));
   (0x1d57c1d6d9269e, (-48));
   (0x1cfb95bb9dcc0c, (-48));
   (0x1c954d5f47c90f, (-48));
   (0x1c247a85fe81fa, (-48));
   (0x1ba89c325845e7, (-48));
   (0x1b211b1c70d023, (-48));
   (0x1a8d45215b8101, (-48));
   (0x19ec474a261263, (-48));
   (0x193d25dbd52eb4, (-48));
   (0x187eb1990b697a, (-48));
   (0x17af78e6da9b30, (-48));
   (0x16cdb2bbb212eb, (-48));
   (0x15d71fd8593cee, (-48));
   (0x14c8dc2e42397f, (-48));
   (0x139f152d0f5470, (-48));
   (0x12548eb9151e85, (-48));
   (0x10e1c7047b3b50, (-48));
   (0x1e768d399dc46f, (-49));
   (0x1a9bb78af6cabc, (-49));
   (0x15e8add236a58e, (-49));
   (0x1f3db2174e7468, (-50));
   (0x0, 0);
   (0x1f7efbeb8d4f11, (-50));
   (0x1617398f2aaa47, (-49));
   (0x1ad5336963eefb, (-49));
   (0x1eb97e455b9edb, (-49));
   (0x110785dd689a28, (-48));
   (0x127e451bb944c3, (-48));
   (0x13cc8a99af5452, (-48));
   (0x14f9e6bbc4ecb3, (-48));
   (0x160b9fd68a4554, (-48));
   (0x17059005e2c01d, (-48));
   (0x17eaa126f15283, (-48));
   (0x18bd171a07e38a, (-48));
   (0x197ebeb6d6bbf3, (-48));
   (0x1a310ccf3b375f, (-48));
   (0x1ad5336963eefb, (-48));
   (0x1b6c30b83593e6, (-48));
   (0x1bf6d9ef178c07, (-48));
   (0x1c75e34235a6bc, (-48));
   (0x1ce9e5ec2bda7f, (-48));
   (0x1d5364c8cb8f86, (-48));
   (0x1db2cfe686fe7c, (-48));
   (0x1e088752305a6a, (-48));
   (0x1e54dd4ce75f1d, (-48));
   (0x1e98180e9b47f1, (-48));
   (0x1ed2732e34c7ef, (-48));
   (0x1f0420c1e6308c, (-48));
   (0x1f2d4a4563563f, (-48));
   (0x1f4e115049ec25, (-48));
   (0x1f6690246a9d1f, (-48));
   (0x1f76da19a7630c, (-48));
   (0x1f7efbeb8d4f11, (-48));
   (0x1f7efbeb8d4f11, (-48));
   (0x1f76da19a7630c, (-48));
   (0x1f6690246a9d1f, (-48));
   (0x1f4e115049ec25, (-48));
   (0x1f2d4a4563563f, (-48));
   (0x1f0420c1e6308c, (-48));
   (0x1ed2732e34c7ef, (-48));
   (0x1e98180e9b47f1, (-48));
   (0x1e54dd4ce75f1d, (-48));
   (0x1e088752305a6a, (-48));
   (0x1db2cfe686fe7c, (-48));
   (0x1d5364c8cb8f86, (-48));
   (0x1ce9e5ec2bda7f, (-48));
   (0x1c75e34235a6bc, (-48));
   (0x1bf6d9ef178c07, (-48));
   (0x1b6c30b83593e6, (-48));
   (0x1ad5336963eefb, (-48));
   (0x1a310ccf3b375f, (-48));
   (0x197ebeb6d6bbf3, (-48));
   (0x18bd171a07e38a, (-48));
   (0x17eaa126f15283, (-48));
   (0x17059005e2c01d, (-48));
   (0x160b9fd68a4554, (-48));
   (0x14f9e6bbc4ecb3, (-48));
   (0x13cc8a99af5452, (-48));
   (0x127e451bb944c3, (-48));
   (0x110785dd689a28, (-48));
   (0x1eb97e455b9edb, (-49));
   (0x1ad5336963eefb, (-49));
   (0x1617398f2aaa47, (-49));
   (0x1f7efbeb8d4f11, (-50));
   (0x0, 0);
   (0x1fbfbf7ebc755e, (-50));
   (0x1645640568c1c3, (-49));
   (0x1b0e35269b38f4, (-49));
   (0x1efbdeb14f4ed9, (-49));
   (0x112cf1c3c6a213, (-48));
   (0x12a79e3a2cd2e5, (-48));
   (0x13f9989320b7f7, (-48));
   (0x152a7fa9d2f8e9, (-48));
   (0x163fa3f3c02961, (-48));
   (0x173ce704fb7b23, (-48));
   (0x18253878ae2e08, (-48));
   (0x18fae0c15ad389, (-48));
   (0x19bfb076d236ea, (-48));
   (0x1a751f9447b724, (-48));
   (0x1b1c62db2564fe, (-48));
   (0x1bb67ae8584caa, (-48));
   (0x1c443f1d4d22ae, (-48));
   (0x1cc665b0328621, (-48));
   (0x1d3d89be176072, (-48));
   (0x1daa2fefaae1d7, (-48));
   (0x1e0cca12e97894, (-48));
   (0x1e65b9edeba38d, (-48));
   (0x1eb5537b1434d9, (-48));
   (0x1efbdeb14f4ed9, (-48));
   (0x1f3998f1b1886c, (-48));
   (0x1f6eb62d27730c, (-48));
   (0x1f9b61d0237250, (-48));
   (0x1fbfbf7ebc755e, (-48));
   (0x1fdbeba917c3f5, (-48));
   (0x1feffbfdfebf1f, (-48));
   (0x1ffbffbff7febf, (-48));
   (0x10000000000000, (-47));
   (0x1ffbffbff7febf, (-48));
   (0x1feffbfdfebf1f, (-48));
   (0x1fdbeba917c3f5, (-48));
   (0x1fbfbf7ebc755e, (-48));
   (0x1f9b61d0237250, (-48));
   (0x1f6eb62d27730c, (-48));
   (0x1f3998f1b1886c, (-48));
   (0x1efbdeb14f4ed9, (-48));
   (0x1eb5537b1434d9, (-48));
   (0x1e65b9edeba38d, (-48));
   (0x1e0cca12e97894, (-48));
   (0x1daa2fefaae1d7, (-48));
   (0x1d3d89be176072, (-48));
   (0x1cc665b0328621, (-48));
   (0x1c443f1d4d22ae, (-48));
   (0x1bb67ae8584caa, (-48));
   (0x1b1c62db2564fe, (-48));
   (0x1a751f9447b724, (-48));
   (0x19bfb076d236ea, (-48));
   (0x18fae0c15ad389, (-48));
   (0x18253878ae2e08, (-48));
   (0x173ce704fb7b23, (-48));
   (0x163fa3f3c02961, (-48));
   (0x152a7fa9d2f8e9, (-48));
   (0x13f9989320b7f7, (-48));
   (0x12a79e3a2cd2e5, (-48));
   (0x112cf1c3c6a213, (-48));
   (0x1efbdeb14f4ed9, (-49));
   (0x1b0e35269b38f4, (-49));
   (0x1645640568c1c3, (-49));
   (0x1fbfbf7ebc755e, (-50));
   (0x0, 0);
   (0x10000000000000, (-49));
   (0x16732f8d0e2f76, (-49));
   (0x1b46bfc05aeb89, (-49));
   (0x1f3db2174e7468, (-49));
   (0x11520cd1372fea, (-48));
   (0x12d09c7b54e03e, (-48));
   (0x142641cf569571, (-48));
   (0x155aaa002a9d59, (-48));
   (0x16732f8d0e2f76, (-48));
   (0x1773bb6fa96c50, (-48));
   (0x185f42f1521411, (-48));
   (0x193813088978c4, (-48));
   (0x1a000000000000, (-48));
   (0x1ab884ef702283, (-48));
   (0x1b62d946c44ef2, (-48));
   (0x1c000000000000, (-48));
   (0x1c90d29d2d43cd, (-48));
   (0x1d160948667c88, (-48));
   (0x1d9040f230cfdf, (-48));
   (0x1e000000000000, (-48));
   (0x1e65b9edeba38d, (-48));
   (0x1ec1d2284fc275, (-48));
   (0x1f149e4df76f81, (-48));
   (0x1f5e67fdcbdf43, (-48));
   (0x1f9f6e4990f227, (-48));
   (0x1fd7e6e08ed5eb, (-48));
   (0x1003ff801ff603, (-47));
   (0x1017ee1acdc962, (-47));
   (0x1027ce7b7ea376, (-47));
   (0x1033ac8e57cb7e, (-47));
   (0x103b911e4e2516, (-47));
   (0x103f81f636b80b, (-47));
   (0x103f81f636b80b, (-47));
   (0x103b911e4e2516, (-47));
   (0x1033ac8e57cb7e, (-47));
   (0x1027ce7b7ea376, (-47));
   (0x1017ee1acdc962, (-47));
   (0x1003ff801ff603, (-47));
   (0x1fd7e6e08ed5eb, (-48));
   (0x1f9f6e4990f227, (-48));
   (0x1f5e67fdcbdf43, (-48));
   (0x1f149e4df76f81, (-48));
   (0x1ec1d2284fc275, (-48));
   (0x1e65b9edeba38d, (-48));
   (0x1e000000000000, (-48));
   (0x1d9040f230cfdf, (-48));
   (0x1d160948667c88, (-48));
   (0x1c90d29d2d43cd, (-48));
   (0x1c000000000000, (-48));
   (0x1b62d946c44ef2, (-48));
   (0x1ab884ef702283, (-48));
   (0x1a000000000000, (-48));
   (0x193813088978c4, (-48));
   (0x185f42f1521411, (-48));
   (0x1773bb6fa96c50, (-48));
   (0x16732f8d0e2f76, (-48));
   (0x155aaa002a9d59, (-48));
   (0x142641cf569571, (-48));
   (0x12d09c7b54e03e, (-48));
   (0x11520cd1372fea, (-48));
   (0x1f3db2174e7468, (-49));
   (0x1b46bfc05aeb89, (-49));
   (0x16732f8d0e2f76, (-49));
   (0x10000000000000, (-49));
   (0x0, 0)].

(** spherical_functions/Wigner_coefficients.npy: for every 2 ell, for every 2 m >= 0, the entries with |mp| <= m; 93665 in the file *)
Definition Wigner_file_quarter : list (list (list (Z * Z))) :=
  [[[(0x10000000000000, (-52))]];
   [[(0x10000000000000, (-52));
(0x10000000000000, (-52))]];
   [[(0x10000000000000, (-52))];
[(0x10000000000000, (-52));
(0x16a09e667f3bcc, (-52));
(0x10000000000000, (-52))]];
   [[(0x10000000000000, (-51));
(0x10000000000000, (-52))];
[(0x10000000000000, (-52));
(0x1bb67ae8584caa, (-52));
(0x1bb67ae8584caa, (-52));
(0x10000000000000, (-52))]];
   [[(0x10000000000000, (-52))];
[(0x18000000000000, (-51));
(0x13988e1409212e, (-51));
(0x10000000000000, (-52))];
[(0x10000000000000, (-52));
(0x10000000000000, (-51));
(0x13988e1409212e, (-51));
(0x10000000000000, (-51));
(0x10000000000000, (-52))]];
   [[(0x18000000000000, (-51));
(0x10000000000000, (-52))];
[(0x10000000000000, (-50));
(0x10f876ccdf6cd9, (-50));
(0x16a09e667f3bcc, (-51));
(0x10000000000000, (-52))];
[(0x10000000000000, (-52));
(0x11e3779b97f4a7, (-51));
(0x194c583ada5b52, (-51));
(0x194c583ada5b52, (-51));
(0x11e3779b97f4a7, (-51));
(0x10000000000000, (-52))]];
   [[(0x10000000000000, (-52))];
[(0x18000000000000, (-50));
(0x1bb67ae8584caa, (-51));
(0x10000000000000, (-52))];
[(0x14000000000000, (-50));
(0x194c583ada5b52, (-50));
(0x15e8add236a58e, (-50));
(0x194c583ada5b52, (-51));
(0x10000000000000, (-52))];
[(0x10000000000000, (-52));
(0x13988e1409212e, (-51));
(0x1efbdeb14f4ed9, (-51));
(0x11e3779b97f4a7, (-50));
(0x1efbdeb14f4ed9, (-51));
(0x13988e1409212e, (-51));
(0x10000000000000, (-52))]];
   [[(0x10000000000000, (-50));
(0x10000000000000, (-52))];
[(0x14000000000000, (-49));
(0x1efbdeb14f4ed9, (-50));
(0x1efbdeb14f4ed9, (-51));
(0x10000000000000, (-52))];
[(0x18000000000000, (-50));
(0x11520cd1372fea, (-49));
(0x11e3779b97f4a7, (-49));
(0x1ad5336963eefb, (-50));
(0x1bb67ae8584caa, (-51));
(0x10000000000000, (-52))];
[(0x10000000000000, (-52));
(0x152a7fa9d2f8e9, (-51));
(0x12548eb9151e85, (-50));
(0x17aa10d193c22c, (-50));
(0x17aa10d193c22c, (-50));
(0x12548eb9151e85, (-50));
(0x152a7fa9d2f8e9, (-51));
(0x10000000000000, (-52))]];
   [[(0x10000000000000, (-52))];
[(0x14000000000000, (-49));
(0x11e3779b97f4a7, (-50));
(0x10000000000000, (-52))];
[(0x1e000000000000, (-49));
(0x1c48c6001f0abf, (-49));
(0x12f9422c23c47d, (-49));
(0x10f876ccdf6cd9, (-50));
(0x10000000000000, (-52))];
[(0x1c000000000000, (-50));
(0x16732f8d0e2f76, (-49));
(0x1a751f9447b724, (-49));
(0x17aa10d193c22c, (-49));
(0x1fbfbf7ebc755e, (-50));
(0x1deeea11683f49, (-51));
(0x10000000000000, (-52))];
[(0x10000000000000, (-52));
(0x16a09e667f3bcc, (-51));
(0x152a7fa9d2f8e9, (-50));
(0x1deeea11683f49, (-50));
(0x10bbb307acafda, (-49));
(0x1deeea11683f49, (-50));
(0x152a7fa9d2f8e9, (-50));
(0x16a09e667f3bcc, (-51));
(0x10000000000000, (-52))]];
   [[(0x14000000000000, (-50));
(0x10000000000000, (-52))];
[(0x14000000000000, (-48));
(0x187eb1990b697a, (-49));
(0x13988e1409212e, (-50));
(0x10000000000000, (-52))];
[(0x15000000000000, (-48));
(0x16e9b2675a6626, (-48));
(0x12b5524ae1278d, (-48));
(0x16732f8d0e2f76, (-49));
(0x12548eb9151e85, (-50));
(0x10000000000000, (-52))];
[(0x10000000000000, (-49));
(0x1c000000000000, (-49));
(0x12548eb9151e85, (-48));
(0x12b5524ae1278d, (-48));
(0x1deeea11683f49, (-49));
(0x12548eb9151e85, (-49));
(0x10000000000000, (-50));
(0x10000000000000, (-52))];
[(0x10000000000000, (-52));
(0x18000000000000, (-51));
(0x18000000000000, (-50));
(0x12548eb9151e85, (-49));
(0x16732f8d0e2f76, (-49));
(0x16732f8d0e2f76, (-49));
(0x12548eb9151e85, (-49));
(0x18000000000000, (-50));
(0x18000000000000, (-51));
(0x10000000000000, (-52))]];
   [[(0x10000000000000, (-52))];
[(0x1e000000000000, (-49));
(0x15e8add236a58e, (-50));
(0x10000000000000, (-52))];
[(0x11800000000000, (-47));
(0x1a751f9447b724, (-48));
(0x1cfb95bb9dcc0c, (-49));
(0x152a7fa9d2f8e9, (-50));
(0x10000000000000, (-52))];
[(0x1c000000000000, (-48));
(0x11257c5187fd08, (-47));
(0x1033ac8e57cb7e, (-47));
(0x17aa10d193c22c, (-48));
(0x19ec474a261263, (-49));
(0x13988e1409212e, (-50));
(0x10000000000000, (-52))];
[(0x12000000000000, (-49));
(0x10f876ccdf6cd9, (-48));
(0x183fab8b4d4315, (-48));
(0x1b7ed6159fadc7, (-48));
(0x19198c8b8307c8, (-48));
(0x12548eb9151e85, (-48));
(0x14c8dc2e42397f, (-49));
(0x10f876ccdf6cd9, (-50));
(0x10000000000000, (-52))];
[(0x10000000000000, (-52));
(0x194c583ada5b52, (-51));
(0x1ad5336963eefb, (-50));
(0x15e8add236a58e, (-49));
(0x1cfb95bb9dcc0c, (-49));
(0x1fbfbf7ebc755e, (-49));
(0x1cfb95bb9dcc0c, (-49));
(0x15e8add236a58e, (-49));
(0x1ad5336963eefb, (-50));
(0x194c583ada5b52, (-51));
(0x10000000000000, (-52))]];
   [[(0x18000000000000, (-50));
(0x10000000000000, (-52))];
[(0x11800000000000, (-47));
(0x11bf8c9d2ed1a1, (-48));
(0x17aa10d193c22c, (-50));
(0x10000000000000, (-52))];
[(0x1c000000000000, (-47));
(0x18bfad401b2967, (-47));
(0x10bbb307acafda, (-47));
(0x10bbb307acafda, (-48));
(0x16a09e667f3bcc, (-50));
(0x10000000000000, (-52))];
[(0x12000000000000, (-47));
(0x183fab8b4d4315, (-47));
(0x19b83a7a4bfb8d, (-47));
(0x15bcb04cb65909, (-47));
(0x1cfb95bb9dcc0c, (-48));
(0x1d64d51e0db1c5, (-49));
(0x14c8dc2e42397f, (-50));
(0x10000000000000, (-52))];
[(0x14000000000000, (-49));
(0x141fe68f0af33c, (-48));
(0x1efbdeb14f4ed9, (-48));
(0x132b9817efd0dd, (-47));
(0x137135779c8dca, (-47));
(0x1033ac8e57cb7e, (-47));
(0x15e8add236a58e, (-48));
(0x173ce704fb7b23, (-49));
(0x11e3779b97f4a7, (-50));
(0x10000000000000, (-52))];
[(0x10000000000000, (-52));
(0x1a887293fd6f34, (-51));
(0x1daa2fefaae1d7, (-50));
(0x19b0c25315c2cd, (-49));
(0x122a788fc76de5, (-48));
(0x157e82ecdabe8c, (-48));
(0x157e82ecdabe8c, (-48));
(0x122a788fc76de5, (-48));
(0x19b0c25315c2cd, (-49));
(0x1daa2fefaae1d7, (-50));
(0x1a887293fd6f34, (-51));
(0x10000000000000, (-52))]];
   [[(0x10000000000000, (-52))];
[(0x15000000000000, (-48));
(0x19ec474a261263, (-50));
(0x10000000000000, (-52))];
[(0x11800000000000, (-46));
(0x1622cd337f0fe8, (-47));
(0x147e7054af0989, (-48));
(0x194c583ada5b52, (-50));
(0x10000000000000, (-52))];
[(0x15000000000000, (-46));
(0x15000000000000, (-46));
(0x109a19e69f4bee, (-46));
(0x147e7054af0989, (-47));
(0x12f9422c23c47d, (-48));
(0x18000000000000, (-50));
(0x10000000000000, (-52))];
[(0x16800000000000, (-47));
(0x106e825da8fc2b, (-46));
(0x132b9817efd0dd, (-46));
(0x122fc0a879f24f, (-46));
(0x1c0ffb7051bb54, (-47));
(0x11520cd1372fea, (-47));
(0x106e825da8fc2b, (-48));
(0x15e8add236a58e, (-50));
(0x10000000000000, (-52))];
[(0x16000000000000, (-49));
(0x1773bb6fa96c50, (-48));
(0x134491be50521a, (-47));
(0x19b0c25315c2cd, (-47));
(0x1c6f236edfc214, (-47));
(0x1a532c32c23dd4, (-47));
(0x144f6273c4660e, (-47));
(0x19b0c25315c2cd, (-48));
(0x19b0c25315c2cd, (-49));
(0x12c2fc595456a6, (-50));
(0x10000000000000, (-52))];
[(0x10000000000000, (-52));
(0x1bb67ae8584caa, (-51));
(0x103f81f636b80b, (-49));
(0x1daa2fefaae1d7, (-49));
(0x163fa3f3c02961, (-48));
(0x1c247a85fe81fa, (-48));
(0x1e65b9edeba38d, (-48));
(0x1c247a85fe81fa, (-48));
(0x163fa3f3c02961, (-48));
(0x1daa2fefaae1d7, (-49));
(0x103f81f636b80b, (-49));
(0x1bb67ae8584caa, (-51));
(0x10000000000000, (-52))]];
   [[(0x1c000000000000, (-50));
(0x10000000000000, (-52))];
[(0x1c000000000000, (-47));
(0x183fab8b4d4315, (-48));
(0x1bb67ae8584caa, (-50));
(0x10000000000000, (-52))];
[(0x1f800000000000, (-46));
(0x177a8cfc37711c, (-46));
(0x1b1c62db2564fe, (-47));
(0x173ce704fb7b23, (-48));
(0x1ad5336963eefb, (-50));
(0x10000000000000, (-52))];
[(0x1e000000000000, (-46));
(0x109a19e69f4bee, (-45));
(0x1db2cfe686fe7c, (-46));
(0x156edb65e9fc4a, (-46));
(0x187eb1990b697a, (-47));
(0x1536948017480f, (-48));
(0x194c583ada5b52, (-50));
(0x10000000000000, (-52))];
[(0x1b800000000000, (-47));
(0x158ac7b74ca3e1, (-46));
(0x1b3fb4d7ab24d7, (-46));
(0x1c6f236edfc214, (-46));
(0x189feb353eb1ba, (-46));
(0x1196cc93bf113c, (-46));
(0x144f6273c4660e, (-47));
(0x122a788fc76de5, (-48));
(0x16fa6ea162d0f0, (-50));
(0x10000000000000, (-52))];
[(0x18000000000000, (-49));
(0x1af1c35b8c8d9f, (-48));
(0x1773bb6fa96c50, (-47));
(0x10afbaf6d01f09, (-46));
(0x13e655eefe1367, (-46));
(0x141b20cd3676d2, (-46));
(0x113bd2f90a1cb4, (-46));
(0x18dfeb6abd9840, (-47));
(0x1daa2fefaae1d7, (-48));
(0x1c247a85fe81fa, (-49));
(0x13988e1409212e, (-50));
(0x10000000000000, (-52))];
[(0x10000000000000, (-52));
(0x1cd82b446159f3, (-51));
(0x11a9dc8f6df103, (-49));
(0x10e95a539f492b, (-48));
(0x1abd4ed15b9640, (-48));
(0x11eff8dd34fde2, (-47));
(0x14b65a49968d7e, (-47));
(0x14b65a49968d7e, (-47));
(0x11eff8dd34fde2, (-47));
(0x1abd4ed15b9640, (-48));
(0x10e95a539f492b, (-48));
(0x11a9dc8f6df103, (-49));
(0x1cd82b446159f3, (-51));
(0x10000000000000, (-52))]];
   [[(0x10000000000000, (-52))];
[(0x1c000000000000, (-48));
(0x1deeea11683f49, (-50));
(0x10000000000000, (-52))];
[(0x1f800000000000, (-46));
(0x11257c5187fd08, (-46));
(0x1b7ed6159fadc7, (-48));
(0x1d64d51e0db1c5, (-50));
(0x10000000000000, (-52))];
[(0x1a400000000000, (-45));
(0x16461bece53edd, (-45));
(0x1e4f966e2093da, (-46));
(0x1033ac8e57cb7e, (-46));
(0x19fb1339d2c7df, (-48));
(0x1c48c6001f0abf, (-50));
(0x10000000000000, (-52))];
[(0x14a00000000000, (-45));
(0x18dfeb6abd9840, (-45));
(0x189feb353eb1ba, (-45));
(0x141b20cd3676d2, (-45));
(0x1ade23a8116e30, (-46));
(0x1cb90a49bb852c, (-47));
(0x1773bb6fa96c50, (-48));
(0x1a887293fd6f34, (-50));
(0x10000000000000, (-52))];
[(0x10800000000000, (-46));
(0x1b800000000000, (-46));
(0x12a7f0900e3230, (-45));
(0x151b5be47ee17b, (-45));
(0x141b20cd3676d2, (-45));
(0x101ee231a40ee9, (-45));
(0x158ac7b74ca3e1, (-46));
(0x1773bb6fa96c50, (-47));
(0x13e655eefe1367, (-48));
(0x18000000000000, (-50));
(0x10000000000000, (-52))];
[(0x1a000000000000, (-49));
(0x1e98180e9b47f1, (-48));
(0x1c0b6b62b901f2, (-47));
(0x1523b0e8871b76, (-46));
(0x1ae7f54bcf7cd4, (-46));
(0x1d4aa8b979af2e, (-46));
(0x1b665a70daa248, (-46));
(0x15f7fe8b1b4363, (-46));
(0x1de54970ada724, (-47));
(0x10e95a539f492b, (-47));
(0x1e98180e9b47f1, (-49));
(0x1465655f122ff6, (-50));
(0x10000000000000, (-52))];
[(0x10000000000000, (-52));
(0x1deeea11683f49, (-51));
(0x13142b30a929ab, (-49));
(0x13142b30a929ab, (-48));
(0x1fa37a3e5bbca1, (-48));
(0x165f320a9951d6, (-47));
(0x1b665a70daa248, (-47));
(0x1d4aa8b979af2e, (-47));
(0x1b665a70daa248, (-47));
(0x165f320a9951d6, (-47));
(0x1fa37a3e5bbca1, (-48));
(0x13142b30a929ab, (-48));
(0x13142b30a929ab, (-49));
(0x1deeea11683f49, (-51));
(0x10000000000000, (-52))]];
   [[(0x10000000000000, (-49));
(0x10000000000000, (-52))];
[(0x15000000000000, (-46));
(0x1fbfbf7ebc755e, (-48));
(0x1fbfbf7ebc755e, (-50));
(0x10000000000000, (-52))];
[(0x1f800000000000, (-45));
(0x14554a245c0bbe, (-45));
(0x147e7054af0989, (-46));
(0x1ebda87f068e4d, (-48));
(0x1efbdeb14f4ed9, (-50));
(0x10000000000000, (-52))];
[(0x14a00000000000, (-44));
(0x1377af75482435, (-44));
(0x1e28b133d1b23b, (-45));
(0x12ff9434b34638, (-45));
(0x12ff9434b34638, (-46));
(0x1cb90a49bb852c, (-48));
(0x1daa2fefaae1d7, (-50));
(0x10000000000000, (-52))];
[(0x1b800000000000, (-45));
(0x11dc9d37c0e969, (-44));
(0x134491be50521a, (-44));
(0x11698b311e50fa, (-44));
(0x1a532c32c23dd4, (-45));
(0x1073fb9fb966a4, (-45));
(0x1095479c7e6580, (-46));
(0x19b0c25315c2cd, (-48));
(0x1bb67ae8584caa, (-50));
(0x10000000000000, (-52))];
[(0x13800000000000, (-46));
(0x112c7a84ee716e, (-45));
(0x18c9c52ec3a94d, (-45));
(0x1e14f8ab870908, (-45));
(0x1f11876e61d43e, (-45));
(0x1b665a70daa248, (-45));
(0x148cc3d4a3f9b6, (-45));
(0x19e3f0dbfc30de, (-46));
(0x1abd4ed15b9640, (-47));
(0x15a22073490376, (-48));
(0x18fae0c15ad389, (-50));
(0x10000000000000, (-52))];
[(0x1c000000000000, (-49));
(0x113287b9fb6a3d, (-47));
(0x1085d06e1f0517, (-46));
(0x1a3bbb62e8994b, (-46));
(0x11afbede0fc448, (-45));
(0x148cc3d4a3f9b6, (-45));
(0x14b65a49968d7e, (-45));
(0x121f8f0063bbce, (-45));
(0x1b665a70daa248, (-46));
(0x11afbede0fc448, (-46));
(0x13142b30a929ab, (-47));
(0x1085d06e1f0517, (-48));
(0x152a7fa9d2f8e9, (-50));
(0x10000000000000, (-52))];
[(0x10000000000000, (-52));
(0x1efbdeb14f4ed9, (-51));
(0x147e7054af0989, (-49));
(0x1554aaa7ffeaa9, (-48));
(0x1279137606bf37, (-47));
(0x1b665a70daa248, (-47));
(0x11afbede0fc448, (-46));
(0x140dfb1d04b0b0, (-46));
(0x140dfb1d04b0b0, (-46));
(0x11afbede0fc448, (-46));
(0x1b665a70daa248, (-47));
(0x1279137606bf37, (-47));
(0x1554aaa7ffeaa9, (-48));
(0x147e7054af0989, (-49));
(0x1efbdeb14f4ed9, (-51));
(0x10000000000000, (-52))]];
   [[(0x10000000000000, (-52))];
[(0x12000000000000, (-47));
(0x10f876ccdf6cd9, (-49));
(0x10000000000000, (-52))];
[(0x1a400000000000, (-45));
(0x19198c8b8307c8, (-46));
(0x11bf8c9d2ed1a1, (-47));
(0x10bbb307acafda, (-49));
(0x10000000000000, (-52))];
[(0x1ce00000000000, (-44));
(0x15535a9327d18f, (-44));
(0x197d2d0524285b, (-45));
(0x1807feab1c4274, (-46));
(0x10fe1e036d703c, (-47));
(0x103f81f636b80b, (-49));
(0x10000000000000, (-52))];
[(0x1ef00000000000, (-44));
(0x1ff3bda6d9c950, (-44));
(0x1b87fed67276aa, (-44));
(0x13be612611ae5f, (-44));
(0x1744a4b2972ea1, (-45));
(0x15effa2a4c88db, (-46));
(0x1f76da19a7630c, (-48));
(0x1efbdeb14f4ed9, (-50));
(0x10000000000000, (-52))];
[(0x11e00000000000, (-44));
(0x18c9c52ec3a94d, (-44));
(0x1ccd1e65f2ce14, (-44));
(0x1c5c8ba190fb2d, (-44));
(0x17ba9baec4cd79, (-44));
(0x10c76587f2fd61, (-44));
(0x13c62c66f955e5, (-45));
(0x12e85d1660a773, (-46));
(0x1bedb0defaf661, (-48));
(0x1cd82b446159f3, (-50));
(0x10000000000000, (-52))];
[(0x16c00000000000, (-46));
(0x150ff9ec3eeef1, (-45));
(0x101087764c43e3, (-44));
(0x14bd4096d3359c, (-44));
(0x16f9b6cb0e610a, (-44));
(0x15f7fe8b1b4363, (-44));
(0x121f8f0063bbce, (-44));
(0x19a153a24a7949, (-45));
(0x1ea2490ebdd6b8, (-46));
(0x1e2a8c7e4a7c85, (-47));
(0x175ddc4efa914a, (-48));
(0x19ec474a261263, (-50));
(0x10000000000000, (-52))];
[(0x1e000000000000, (-49));
(0x132b9817efd0dd, (-47));
(0x133a2daa480dc4, (-46));
(0x1ffefffbffdffe, (-46));
(0x16b7fe976aa700, (-45));
(0x1bf6fe8d3fa64c, (-45));
(0x1e14f8ab870908, (-45));
(0x1c5c8ba190fb2d, (-45));
(0x1765a4f7302378, (-45));
(0x10c76587f2fd61, (-45));
(0x14a74489a6c65d, (-46));
(0x1554aaa7ffeaa9, (-47));
(0x11bf8c9d2ed1a1, (-48));
(0x15e8add236a58e, (-50));
(0x10000000000000, (-52))];
[(0x10000000000000, (-52));
(0x10000000000000, (-50));
(0x15e8add236a58e, (-49));
(0x17aa10d193c22c, (-48));
(0x1554aaa7ffeaa9, (-47));
(0x1085d06e1f0517, (-46));
(0x165f320a9951d6, (-46));
(0x1abd4ed15b9640, (-46));
(0x1c5c8ba190fb2d, (-46));
(0x1abd4ed15b9640, (-46));
(0x165f320a9951d6, (-46));
(0x1085d06e1f0517, (-46));
(0x1554aaa7ffeaa9, (-47));
(0x17aa10d193c22c, (-48));
(0x15e8add236a58e, (-49));
(0x10000000000000, (-50));
(0x10000000000000, (-52))]];
   [[(0x12000000000000, (-49));
(0x10000000000000, (-52))];
[(0x1e000000000000, (-46));
(0x141fe68f0af33c, (-47));
(0x11e3779b97f4a7, (-49));
(0x10000000000000, (-52))];
[(0x1ce00000000000, (-44));
(0x1073fb9fb966a4, (-44));
(0x1d6e9fc396fea8, (-46));
(0x139f152d0f5470, (-47));
(0x118cc821d6d3e2, (-49));
(0x10000000000000, (-52))];
[(0x18c00000000000, (-43));
(0x146aeeee7ccef5, (-43));
(0x1bebf8d64f04c1, (-44));
(0x1f37acf8a65898, (-45));
(0x1bbfb6325af96a, (-46));
(0x129d508edf5880, (-47));
(0x10f876ccdf6cd9, (-49));
(0x10000000000000, (-52))];
[(0x16580000000000, (-43));
(0x18f14ee20b2cfa, (-43));
(0x178420518fa382, (-43));
(0x12c2663f1919b5, (-43));
(0x192b184bec7c11, (-44));
(0x1bf6fe8d3fa64c, (-45));
(0x190332fecc2246, (-46));
(0x111a460cc58e30, (-47));
(0x101fe03f61bad0, (-49));
(0x10000000000000, (-52))];
[(0x16c00000000000, (-44));
(0x10b874bfb93b59, (-43));
(0x14bd4096d3359c, (-43));
(0x15ff4ffd3fe9ff, (-43));
(0x140dfb1d04b0b0, (-43));
(0x1f63f3831cbc4d, (-44));
(0x14ed4d02132833, (-44));
(0x1765a4f7302378, (-45));
(0x1554aaa7ffeaa9, (-46));
(0x1e2a8c7e4a7c85, (-48));
(0x1deeea11683f49, (-50));
(0x10000000000000, (-52))];
[(0x1a400000000000, (-46));
(0x196f6e113c0fde, (-45));
(0x1464c2315a7652, (-44));
(0x1bd31c03d3902f, (-44));
(0x1065551dd15fcf, (-43));
(0x10d0f94f61ae04, (-43));
(0x1e14f8ab870908, (-44));
(0x1765a4f7302378, (-44));
(0x1f63f3831cbc4d, (-45));
(0x11e2e87d9e9710, (-45));
(0x10dd09389f401c, (-46));
(0x19198c8b8307c8, (-48));
(0x1ad5336963eefb, (-50));
(0x10000000000000, (-52))];
[(0x10000000000000, (-48));
(0x1536948017480f, (-47));
(0x1622cd337f0fe8, (-46));
(0x133a2daa480dc4, (-45));
(0x1c9e40c8fdbe80, (-45));
(0x128cbd57e2601f, (-44));
(0x1523b0e8871b76, (-44));
(0x154568b92cbc62, (-44));
(0x12e85d1660a773, (-44));
(0x1d985e1256c00c, (-45));
(0x143c7177258022, (-45));
(0x17d935fcd37415, (-46));
(0x17aa10d193c22c, (-47));
(0x12f9422c23c47d, (-48));
(0x16a09e667f3bcc, (-50));
(0x10000000000000, (-52))];
[(0x10000000000000, (-52));
(0x107e0f66afed06, (-50));
(0x1752e50db3a3a1, (-49));
(0x1a13a9cb996650, (-48));
(0x186482dd565021, (-47));
(0x13aa7c62233603, (-46));
(0x1bcfd6944d4f29, (-46));
(0x116e984240109a, (-45));
(0x137d5526a15c98, (-45));
(0x137d5526a15c98, (-45));
(0x116e984240109a, (-45));
(0x1bcfd6944d4f29, (-46));
(0x13aa7c62233603, (-46));
(0x186482dd565021, (-47));
(0x1a13a9cb996650, (-48));
(0x1752e50db3a3a1, (-49));
(0x107e0f66afed06, (-50));
(0x10000000000000, (-52))]];
   [[(0x10000000000000, (-52))];
[(0x16800000000000, (-47));
(0x12f9422c23c47d, (-49));
(0x10000000000000, (-52))];
[(0x14a00000000000, (-44));
(0x1196cc93bf113c, (-45));
(0x163fa3f3c02961, (-47));
(0x12c2fc595456a6, (-49));
(0x10000000000000, (-52))];
[(0x1ce00000000000, (-43));
(0x12e7332eddc779, (-43));
(0x14269abe0d12a4, (-44));
(0x10fe1e036d703c, (-45));
(0x157e82ecdabe8c, (-47));
(0x12548eb9151e85, (-49));
(0x10000000000000, (-52))];
[(0x141c0000000000, (-42));
(0x12372b73e9608b, (-42));
(0x1bd31c03d3902f, (-43));
(0x11cbf4c3139a1a, (-43));
(0x12c2663f1919b5, (-44));
(0x1fa37a3e5bbca1, (-46));
(0x143c7177258022, (-47));
(0x11a9dc8f6df103, (-49));
(0x10000000000000, (-52))];
[(0x1f480000000000, (-43));
(0x12b1b20292ec76, (-42));
(0x130cdc11b6f531, (-42));
(0x10a0df415cc8a6, (-42));
(0x18d0fa2d5edbc8, (-43));
(0x1f63f3831cbc4d, (-44));
(0x108b5173949285, (-44));
(0x1c37c86eeb06ec, (-46));
(0x1279137606bf37, (-47));
(0x10bbb307acafda, (-49));
(0x10000000000000, (-52))];
[(0x1c700000000000, (-44));
(0x160710520e620e, (-43));
(0x1cf5f7a4d6888b, (-43));
(0x1065551dd15fcf, (-42));
(0x1019b2dc9f8a57, (-42));
(0x1b75fe2de2143b, (-43));
(0x14432f2834e9b2, (-43));
(0x19a153a24a7949, (-44));
(0x1b5265d37b575e, (-45));
(0x17d935fcd37415, (-46));
(0x1033ac8e57cb7e, (-47));
(0x1efbdeb14f4ed9, (-50));
(0x10000000000000, (-52))];
[(0x1e000000000000, (-46));
(0x1e4f966e2093da, (-45));
(0x196f6e113c0fde, (-44));
(0x123d96a29b8690, (-43));
(0x16b7fe976aa700, (-43));
(0x18c9c52ec3a94d, (-43));
(0x17c8270597fee5, (-43));
(0x140dfb1d04b0b0, (-43));
(0x1d985e1256c00c, (-44));
(0x12eddc64dfe307, (-44));
(0x14a74489a6c65d, (-45));
(0x12b5524ae1278d, (-46));
(0x1ad5336963eefb, (-48));
(0x1bb67ae8584caa, (-50));
(0x10000000000000, (-52))];
[(0x11000000000000, (-48));
(0x1752e50db3a3a1, (-47));
(0x193faee39c2398, (-46));
(0x16d13492263986, (-45));
(0x11ba0634927d30, (-44));
(0x1815f5f3de59c7, (-44));
(0x1ce8604f144860, (-44));
(0x1ed0d3d9d8432e, (-44));
(0x1d3bffb9f20ae4, (-44));
(0x18a70fe179cf58, (-44));
(0x1265548f69ff83, (-44));
(0x1815f5f3de59c7, (-45));
(0x1b459364929936, (-46));
(0x1a13a9cb996650, (-47));
(0x1432f24fb01c7a, (-48));
(0x1752e50db3a3a1, (-50));
(0x10000000000000, (-52))];
[(0x10000000000000, (-52));
(0x10f876ccdf6cd9, (-50));
(0x18bd171a07e38a, (-49));
(0x1c90d29d2d43cd, (-48));
(0x1ba89c325845e7, (-47));
(0x1724103f96baf9, (-46));
(0x1107fe1f005db7, (-45));
(0x164c9205aabb23, (-45));
(0x1a25e4636018e7, (-45));
(0x1b8ffb5b2304ea, (-45));
(0x1a25e4636018e7, (-45));
(0x164c9205aabb23, (-45));
(0x1107fe1f005db7, (-45));
(0x1724103f96baf9, (-46));
(0x1ba89c325845e7, (-47));
(0x1c90d29d2d43cd, (-48));
(0x18bd171a07e38a, (-49));
(0x10f876ccdf6cd9, (-50));
(0x10000000000000, (-52))]];
   [[(0x14000000000000, (-49));
(0x10000000000000, (-52))];
[(0x14a00000000000, (-45));
(0x18dfeb6abd9840, (-47));
(0x13e655eefe1367, (-49));
(0x10000000000000, (-52))];
[(0x18c00000000000, (-43));
(0x1942a725d3c4c5, (-44));
(0x144f6273c4660e, (-45));
(0x185f42f1521411, (-47));
(0x13988e1409212e, (-49));
(0x10000000000000, (-52))];
[(0x1ad00000000000, (-42));
(0x13accc8a2e72f8, (-42));
(0x1818cb317265d4, (-43));
(0x1837def7a76890, (-44));
(0x135fe592ec53a6, (-45));
(0x175ddc4efa914a, (-47));
(0x13142b30a929ab, (-49));
(0x10000000000000, (-52))];
[(0x1f480000000000, (-42));
(0x1eb7b32c286425, (-42));
(0x19c2b7c765aa26, (-42));
(0x12677e78c96947, (-42));
(0x1632468dc11009, (-43));
(0x1632468dc11009, (-44));
(0x11d8b8b32fe9f7, (-45));
(0x15db84a92f7918, (-47));
(0x12548eb9151e85, (-49));
(0x10000000000000, (-52))];
[(0x15540000000000, (-42));
(0x1b1721a5a050f1, (-42));
(0x1d8ed947a81e9a, (-42));
(0x1be2fdd49c1e76, (-42));
(0x16c4f650e3b8ae, (-42));
(0x1004d4456e8bcd, (-42));
(0x1338feb9b7daf6, (-43));
(0x1351c93ce03f9b, (-44));
(0x1f8c6f52ca7a62, (-46));
(0x13d7d7af35c95b, (-47));
(0x11520cd1372fea, (-49));
(0x10000000000000, (-52))];
[(0x11800000000000, (-43));
(0x1c700000000000, (-43));
(0x13b3bb612ec681, (-42));
(0x17a57a9fb9b215, (-42));
(0x18c9c52ec3a94d, (-42));
(0x16c4f650e3b8ae, (-42));
(0x124ea973ec0d7d, (-42));
(0x19a153a24a7949, (-43));
(0x1ee941fb0065c6, (-44));
(0x1f8c6f52ca7a62, (-45));
(0x1a751f9447b724, (-46));
(0x11520cd1372fea, (-47));
(0x10000000000000, (-49));
(0x10000000000000, (-52))];
[(0x11000000000000, (-45));
(0x11da83a23c4a60, (-44));
(0x1f3e665be98228, (-44));
(0x17733de6022505, (-43));
(0x1eb416ab27b47b, (-43));
(0x11b3c951b085c1, (-42));
(0x12113c316cad3c, (-42));
(0x1057aebe1c0f90, (-42));
(0x1a25e4636018e7, (-43));
(0x1265548f69ff83, (-43));
(0x1687ba67f7f00d, (-44));
(0x179e38d26d4fc1, (-45));
(0x149d93405be848, (-46));
(0x1c90d29d2d43cd, (-48));
(0x1c90d29d2d43cd, (-50));
(0x10000000000000, (-52))];
[(0x12000000000000, (-48));
(0x19800000000000, (-47));
(0x1c90d29d2d43cd, (-46));
(0x1ac7c5735a6f90, (-45));
(0x15a57436c6e719, (-44));
(0x1eb416ab27b47b, (-44));
(0x134fc4591da930, (-43));
(0x15ae483b4f3648, (-43));
(0x15ca3e52d014c1, (-43));
(0x139c6b4a8812ad, (-43));
(0x1f89233efeda98, (-44));
(0x1687ba67f7f00d, (-44));
(0x1c577762e992e8, (-45));
(0x1eec5ce089dc6d, (-46));
(0x1c90d29d2d43cd, (-47));
(0x156c9df5e1f2da, (-48));
(0x18000000000000, (-50));
(0x10000000000000, (-52))];
[(0x10000000000000, (-52));
(0x116f8334644df8, (-50));
(0x1a2744ce9674f4, (-49));
(0x1f20f6bb68a9cb, (-48));
(0x1f20f6bb68a9cb, (-47));
(0x1af553391bbf11, (-46));
(0x1496f95ed93217, (-45));
(0x1c0f207c3ce29b, (-45));
(0x112ebfb8c3e4b5, (-44));
(0x12fefff9430385, (-44));
(0x12fefff9430385, (-44));
(0x112ebfb8c3e4b5, (-44));
(0x1c0f207c3ce29b, (-45));
(0x1496f95ed93217, (-45));
(0x1af553391bbf11, (-46));
(0x1f20f6bb68a9cb, (-47));
(0x1f20f6bb68a9cb, (-48));
(0x1a2744ce9674f4, (-49));
(0x116f8334644df8, (-50));
(0x10000000000000, (-52))]];
   [[(0x10000000000000, (-52))];
[(0x1b800000000000, (-47));
(0x14f9e6bbc4ecb3, (-49));
(0x10000000000000, (-52))];
[(0x1ef00000000000, (-44));
(0x17d0d19fabe1e2, (-45));
(0x1b3fb4d7ab24d7, (-47));
(0x14c8dc2e42397f, (-49));
(0x10000000000000, (-52))];
[(0x1ad00000000000, (-42));
(0x1f8cd8cf102231, (-43));
(0x1e5bf31684f63e, (-44));
(0x172835e4cec1f0, (-45));
(0x1a7ecad724e985, (-47));
(0x1465655f122ff6, (-49));
(0x10000000000000, (-52))];
[(0x17760000000000, (-41));
(0x12f594b8e19b9a, (-41));
(0x1a070f0ab3d82a, (-42));
(0x1e0dd668a14681, (-43));
(0x1ca7c94819ed22, (-44));
(0x15db84a92f7918, (-45));
(0x193d25dbd52eb4, (-47));
(0x13cc8a99af5452, (-49));
(0x10000000000000, (-52))];
[(0x17760000000000, (-41));
(0x18bae13f87f3c5, (-41));
(0x167ba393ce3bbd, (-41));
(0x11a3183d2bbaa2, (-41));
(0x17c2833c4a467f, (-42));
(0x1b2f56809599b6, (-43));
(0x19eb77e4ae1e5c, (-44));
(0x13f3fc643bd08d, (-45));
(0x177a8cfc37711c, (-47));
(0x12f9422c23c47d, (-49));
(0x10000000000000, (-52))];
[(0x1c700000000000, (-42));
(0x1313928ced0be6, (-41));
(0x161e82d7b1e034, (-41));
(0x16580000000000, (-41));
(0x13b807816a155e, (-41));
(0x1e5bf31684f63e, (-42));
(0x14432f2834e9b2, (-42));
(0x172ef17c404c54, (-43));
(0x164ee6dffbe475, (-44));
(0x11800000000000, (-45));
(0x1536948017480f, (-47));
(0x11e3779b97f4a7, (-49));
(0x10000000000000, (-52))];
[(0x15400000000000, (-43));
(0x1209e0d8506b3f, (-42));
(0x1a37d40fb90243, (-42));
(0x1094eed7bdb654, (-41));
(0x126cd534b88acd, (-41));
(0x12113c316cad3c, (-41));
(0x1f4b2469e22f8f, (-42));
(0x17dea8d78a1b17, (-42));
(0x1fdccca3a9ca06, (-43));
(0x1265548f69ff83, (-43));
(0x1209e0d8506b3f, (-44));
(0x1d279e51208c8a, (-46));
(0x12706821902e9a, (-47));
(0x107e0f66afed06, (-49));
(0x10000000000000, (-52))];
[(0x13200000000000, (-45));
(0x14d216f549b341, (-44));
(0x12efc32ab51ab2, (-43));
(0x1da3f2c65d6761, (-43));
(0x144ef5bbbe2e34, (-42));
(0x189e17511ea2b5, (-42));
(0x1a8dadfa88c8a2, (-42));
(0x198d11fbd3a118, (-42));
(0x15ecffcb75882b, (-42));
(0x10b96d84400c5a, (-42));
(0x1687ba67f7f00d, (-43));
(0x1a82de08972560, (-44));
(0x1ac7c5735a6f90, (-45));
(0x16954b41cd4293, (-46));
(0x1e4c6b77882ab7, (-48));
(0x1d64d51e0db1c5, (-50));
(0x10000000000000, (-52))];
[(0x13000000000000, (-48));
(0x1bbd67a995e724, (-47));
(0x100b1c248e1e28, (-45));
(0x1f20f6bb68a9cb, (-45));
(0x1a1a2de5a3155a, (-44));
(0x13428b77d9123b, (-43));
(0x194ac8784509f5, (-43));
(0x1dc2db4a9ad67c, (-43));
(0x1f805f7d67234d, (-43));
(0x1e0913f5b82d75, (-43));
(0x19c61f9525d710, (-43));
(0x13d73cdc6739a8, (-43));
(0x1b3cd7e3fb9491, (-44));
(0x10822e66ba0fa0, (-44));
(0x1166c943c20e3c, (-45));
(0x1f20f6bb68a9cb, (-47));
(0x16a645d9411b84, (-48));
(0x18a85c24f70659, (-50));
(0x10000000000000, (-52))];
[(0x10000000000000, (-52));
(0x11e3779b97f4a7, (-50));
(0x1b916ed68964ec, (-49));
(0x10e1c7047b3b50, (-47));
(0x1166c943c20e3c, (-46));
(0x1f20f6bb68a9cb, (-46));
(0x189c04e04d8934, (-45));
(0x1166c943c20e3c, (-44));
(0x162ec2ab6ad94c, (-44));
(0x199d448989fce4, (-44));
(0x1add5206492f54, (-44));
(0x199d448989fce4, (-44));
(0x162ec2ab6ad94c, (-44));
(0x1166c943c20e3c, (-44));
(0x189c04e04d8934, (-45));
(0x1f20f6bb68a9cb, (-46));
(0x1166c943c20e3c, (-46));
(0x10e1c7047b3b50, (-47));
(0x1b916ed68964ec, (-49));
(0x11e3779b97f4a7, (-50));
(0x10000000000000, (-52))]];
   [[(0x16000000000000, (-49));
(0x10000000000000, (-52))];
[(0x1b800000000000, (-45));
(0x1e1fef010b23a4, (-47));
(0x15e8add236a58e, (-49));
(0x10000000000000, (-52))];
[(0x141c0000000000, (-42));
(0x129753e312bef9, (-43));
(0x1b277169797524, (-45));
(0x1d9f64731022b3, (-47));
(0x15a22073490376, (-49));
(0x10000000000000, (-52))];
[(0x1ad00000000000, (-41));
(0x11bc1bf7cb458f, (-41));
(0x13accc8a2e72f8, (-42));
(0x11f5f286b793e8, (-43));
(0x1a1fec66dc7a0c, (-45));
(0x1c9e40c8fdbe80, (-47));
(0x152a7fa9d2f8e9, (-49));
(0x10000000000000, (-52))];
[(0x138d0000000000, (-40));
(0x112bf11ef4a97d, (-40));
(0x19f60a1790f391, (-41));
(0x10ccfc6622f836, (-41));
(0x12677e78c96947, (-42));
(0x10bb2d27fceb58, (-43));
(0x186ffac31b9795, (-45));
(0x1b1c62db2564fe, (-47));
(0x147e7054af0989, (-49));
(0x10000000000000, (-52))];
[(0x11100000000000, (-40));
(0x1327e0e315ecaf, (-40));
(0x12b1b20292ec76, (-40));
(0x1fcbb3e3f7f047, (-41));
(0x178420518fa382, (-41));
(0x1e0dd668a14681, (-42));
(0x1064a37ee39ad2, (-42));
(0x1dedfa9659b8d4, (-44));
(0x1622cd337f0fe8, (-45));
(0x19198c8b8307c8, (-47));
(0x13988e1409212e, (-49));
(0x10000000000000, (-52))];
[(0x12980000000000, (-41));
(0x1a37d40fb90243, (-41));
(0x100e2380c7ed54, (-40));
(0x113c316f5c4341, (-40));
(0x1049216f512e81, (-40));
(0x1b19da4a2303da, (-41));
(0x13cab0f451a3ca, (-41));
(0x1930841fadb930, (-42));
(0x1b97fed71eff45, (-43));
(0x1982aa86fc7af8, (-44));
(0x1348b834fd9bcf, (-45));
(0x16954b41cd4293, (-47));
(0x12706821902e9a, (-49));
(0x10000000000000, (-52))];
[(0x19800000000000, (-43));
(0x1689fdc818bc90, (-42));
(0x111ce76d9cab24, (-41));
(0x16b49d26931be0, (-41));
(0x1a97094edbbbc8, (-41));
(0x1ba33fcf14d034, (-41));
(0x198d11fbd3a118, (-41));
(0x14fe099f624ee2, (-41));
(0x1e88c82da64431, (-42));
(0x1382ffc4f563be, (-42));
(0x15a57436c6e719, (-43));
(0x14742e8b6df2e9, (-44));
(0x1feffbfdfebf1f, (-46));
(0x138ebf58b30cbc, (-47));
(0x10f876ccdf6cd9, (-49));
(0x10000000000000, (-52))];
[(0x15600000000000, (-45));
(0x1810aa36d52d3d, (-44));
(0x16b054a02d472f, (-43));
(0x127503a83a26e7, (-42));
(0x1a5f6d3025e1b6, (-42));
(0x10baaa9d1078b2, (-41));
(0x12f8165a33c777, (-41));
(0x134a665569dbca, (-41));
(0x119c1f1e8edddd, (-41));
(0x1cd0ed1abb3c80, (-42));
(0x150b585d2da9f4, (-42));
(0x1b3cd7e3fb9491, (-43));
(0x1ee2760e45cb22, (-44));
(0x1e23ea802b4b1a, (-45));
(0x189c04e04d8934, (-46));
(0x1003ff801ff603, (-47));
(0x1e3307cc56cf5b, (-50));
(0x10000000000000, (-52))];
[(0x14000000000000, (-48));
(0x1e0aa8c5e34c72, (-47));
(0x11e7efea86d98d, (-45));
(0x11efe374c2ef05, (-44));
(0x1f20f6bb68a9cb, (-44));
(0x17d3f79b45ddaf, (-43));
(0x1047122766db0f, (-42));
(0x13fec3f63eff7a, (-42));
(0x162ec2ab6ad94c, (-42));
(0x16465f7267d7db, (-42));
(0x143ff9add2c43c, (-42));
(0x10a312009022f9, (-42));
(0x189c04e04d8934, (-43));
(0x1047122766db0f, (-43));
(0x130ff94904b159, (-44));
(0x13749a35216a1e, (-45));
(0x10e1c7047b3b50, (-46));
(0x17dfea8e092211, (-48));
(0x194c583ada5b52, (-50));
(0x10000000000000, (-52))];
[(0x10000000000000, (-52));
(0x12548eb9151e85, (-50));
(0x1cfb95bb9dcc0c, (-49));
(0x123c0d99c17435, (-47));
(0x135737d0f14724, (-46));
(0x11d4cc2768cf9e, (-45));
(0x1d1e4876e3da81, (-45));
(0x154ff9fe7ec745, (-44));
(0x1c31941b488c34, (-44));
(0x10f139944e8633, (-43));
(0x128f311d1cd2c8, (-43));
(0x128f311d1cd2c8, (-43));
(0x10f139944e8633, (-43));
(0x1c31941b488c34, (-44));
(0x154ff9fe7ec745, (-44));
(0x1d1e4876e3da81, (-45));
(0x11d4cc2768cf9e, (-45));
(0x135737d0f14724, (-46));
(0x123c0d99c17435, (-47));
(0x1cfb95bb9dcc0c, (-49));
(0x12548eb9151e85, (-50));
(0x10000000000000, (-52))]];
   [[(0x10000000000000, (-52))];
[(0x10800000000000, (-46));
(0x16fa6ea162d0f0, (-49));
(0x10000000000000, (-52))];
[(0x16580000000000, (-43));
(0x1f5ad5c214da03, (-45));
(0x105fe0bb7c8781, (-46));
(0x16cdb2bbb212eb, (-49));
(0x10000000000000, (-52))];
[(0x17760000000000, (-41));
(0x1914af1f95d906, (-42));
(0x15ff4ffd3fe9ff, (-43));
(0x1ea2490ebdd6b8, (-45));
(0x1ffefffbffdffe, (-47));
(0x16732f8d0e2f76, (-49));
(0x10000000000000, (-52))];
[(0x19230000000000, (-40));
(0x125b75a4a2c9b8, (-40));
(0x16e5417e9b8ca7, (-41));
(0x1818cb317265d4, (-42));
(0x14f93ee9efbcb9, (-43));
(0x1d355362b9359d, (-45));
(0x1ebda87f068e4d, (-47));
(0x15e8add236a58e, (-49));
(0x10000000000000, (-52))];
[(0x1f480000000000, (-40));
(0x1d8ed947a81e9a, (-40));
(0x1848ccf5b3b778, (-40));
(0x114eb1650b4d0b, (-40));
(0x15405d5c9045f8, (-41));
(0x1632468dc11009, (-42));
(0x1351c93ce03f9b, (-43));
(0x1b1c62db2564fe, (-45));
(0x1cfb95bb9dcc0c, (-47));
(0x152a7fa9d2f8e9, (-49));
(0x10000000000000, (-52))];
[(0x182c0000000000, (-40));
(0x1cb870894e687d, (-40));
(0x1dda24837f468f, (-40));
(0x1b404a33466d85, (-40));
(0x15d979c518083a, (-40));
(0x1ea948c7cac150, (-41));
(0x12ae58f86d52dd, (-41));
(0x1382ffc4f563be, (-42));
(0x111ce76d9cab24, (-43));
(0x186482dd565021, (-45));
(0x1ab884ef702283, (-47));
(0x1432f24fb01c7a, (-49));
(0x10000000000000, (-52))];
[(0x17e80000000000, (-41));
(0x11a3bb850940ad, (-40));
(0x16b49d26931be0, (-40));
(0x19bee276167089, (-40));
(0x19da4a270a64e2, (-40));
(0x17080a81e6ad81, (-40));
(0x122e0d9625d3ff, (-40));
(0x1951554c5867c6, (-41));
(0x1ed9c97aeadc1d, (-42));
(0x103c1729152d52, (-42));
(0x1ced144f7c69b7, (-44));
(0x151fe7c35a9dfa, (-45));
(0x17f3fcfe7f0f57, (-47));
(0x12f9422c23c47d, (-49));
(0x10000000000000, (-52))];
[(0x1e480000000000, (-43));
(0x1bc9b91b7fdc44, (-42));
(0x15f7e452f57c6c, (-41));
(0x1e73e0369398e9, (-41));
(0x12b42aaa7a0062, (-40));
(0x147d2c7cf4beb7, (-40));
(0x14140ca688aa4e, (-40));
(0x119c1f1e8edddd, (-40));
(0x1b96de7db10195, (-41));
(0x1335f367277dab, (-41));
(0x1796a8d1f8472f, (-42));
(0x19379937549bf5, (-43));
(0x170520d1d13b8d, (-44));
(0x1166c943c20e3c, (-45));
(0x14ad1320e70bb1, (-47));
(0x116f8334644df8, (-49));
(0x10000000000000, (-52))];
[(0x17c00000000000, (-45));
(0x1b985255eaa239, (-44));
(0x1ae7d52f246688, (-43));
(0x16b054a02d472f, (-42));
(0x10d95403b1576a, (-41));
(0x1649ff31430385, (-41));
(0x1a737d800723f9, (-41));
(0x1c47070e1b5721, (-41));
(0x1b47f3af0def47, (-41));
(0x17bebff793c467, (-41));
(0x1299c90ea0c60d, (-41));
(0x1a1a2de5a3155a, (-42));
(0x1047122766db0f, (-42));
(0x11d4cc2768cf9e, (-43));
(0x10d95403b1576a, (-44));
(0x1ab154803544b0, (-46));
(0x10e1c7047b3b50, (-47));
(0x1efbdeb14f4ed9, (-50));
(0x10000000000000, (-52))];
[(0x15000000000000, (-48));
(0x1033ac8e57cb7e, (-46));
(0x13dee4991d10d3, (-45));
(0x14838f4cf9a2bc, (-44));
(0x126149190f330f, (-43));
(0x1d1e4876e3da81, (-43));
(0x14a2ba00689388, (-42));
(0x1a5f6d3025e1b6, (-42));
(0x1e8b0b1d8e97e3, (-42));
(0x1012a720927f16, (-41));
(0x1ec6f5d8adc764, (-42));
(0x1ac9c136497e7b, (-42));
(0x15252f14766927, (-42));
(0x1e23ea802b4b1a, (-43));
(0x13428b77d9123b, (-43));
(0x15d6b6592ae3e1, (-44));
(0x159fa14aa8784e, (-45));
(0x123c0d99c17435, (-46));
(0x19198c8b8307c8, (-48));
(0x19ec474a261263, (-50));
(0x10000000000000, (-52))];
[(0x10000000000000, (-52));
(0x12c2fc595456a6, (-50));
(0x1e65b9edeba38d, (-49));
(0x139f152d0f5470, (-47));
(0x1561c709864bb3, (-46));
(0x1448e19ba40501, (-45));
(0x111275f9f4906a, (-44));
(0x19cf84064678a4, (-44));
(0x11abdb54bb6624, (-43));
(0x160a3d9dd65545, (-43));
(0x192124e8c5f92b, (-43));
(0x1a3f3330143098, (-43));
(0x192124e8c5f92b, (-43));
(0x160a3d9dd65545, (-43));
(0x11abdb54bb6624, (-43));
(0x19cf84064678a4, (-44));
(0x111275f9f4906a, (-44));
(0x1448e19ba40501, (-45));
(0x1561c709864bb3, (-46));
(0x139f152d0f5470, (-47));
(0x1e65b9edeba38d, (-49));
(0x12c2fc595456a6, (-50));
(0x10000000000000, (-52))]];
   [[(0x18000000000000, (-49));
(0x10000000000000, (-52))];
[(0x11e00000000000, (-44));
(0x11eff8dd34fde2, (-46));
(0x17eaa126f15283, (-49));
(0x10000000000000, (-52))];
[(0x1f480000000000, (-42));
(0x1a6ffeca2312ee, (-43));
(0x11afbede0fc448, (-44));
(0x11afbede0fc448, (-46));
(0x17aa10d193c22c, (-49));
(0x10000000000000, (-52))];
[(0x19230000000000, (-40));
(0x1e49b670d3c6d4, (-41));
(0x1eb7b32c286425, (-42));
(0x19aff4c9ccf823, (-43));
(0x111ff88688a56d, (-44));
(0x112f45cd83cc9c, (-46));
(0x173ce704fb7b23, (-49));
(0x10000000000000, (-52))];
[(0x16580000000000, (-39));
(0x11c63b6d5381e1, (-39));
(0x1879f230d90cf5, (-40));
(0x1cf5f7a4d6888b, (-41));
(0x1d0fd85c627d7a, (-42));
(0x1837def7a76890, (-43));
(0x1033ac8e57cb7e, (-44));
(0x106e825da8fc2b, (-46));
(0x16a09e667f3bcc, (-49));
(0x10000000000000, (-52))];
[(0x182c0000000000, (-39));
(0x185fc888496c22, (-39));
(0x158b3dcb335411, (-39));
(0x10b0166d3e97cf, (-39));
(0x1690eab506bfd0, (-40));
(0x1a6b42c0a53148, (-41));
(0x1a6b42c0a53148, (-42));
(0x1617b907289f25, (-43));
(0x1ddfeedca22e34, (-45));
(0x1edac054c8f94c, (-47));
(0x15d142b6dbadc5, (-49));
(0x10000000000000, (-52))];
[(0x10bc0000000000, (-39));
(0x14eef71741b2e9, (-39));
(0x170711005dc75c, (-39));
(0x16639b629f74eb, (-39));
(0x1344fb5af86f32, (-39));
(0x1d506f61f886e8, (-40));
(0x139c6b4a8812ad, (-40));
(0x16e127d6f415ca, (-41));
(0x16f599797cd513, (-42));
(0x13677a6d823a44, (-43));
(0x1ab884ef702283, (-45));
(0x1c577762e992e8, (-47));
(0x14c8dc2e42397f, (-49));
(0x10000000000000, (-52))];
[(0x1e480000000000, (-41));
(0x174d09c37aa0da, (-40));
(0x1f63ce0c552249, (-40));
(0x12b42aaa7a0062, (-39));
(0x13d69e20055afb, (-39));
(0x12c813728b0427, (-39));
(0x1fbf21b86cd8d4, (-40));
(0x17e49fc2fa654d, (-40));
(0x1fdb7faea331bd, (-41));
(0x12a5fabeaeee5c, (-41));
(0x12e9b2e97f74f7, (-42));
(0x1047122766db0f, (-43));
(0x170520d1d13b8d, (-45));
(0x1952aa86b8d8f8, (-47));
(0x137e5bd40f95a1, (-49));
(0x10000000000000, (-52))];
[(0x11d00000000000, (-42));
(0x10ed7feefc8b43, (-41));
(0x1bc9b91b7fdc44, (-41));
(0x140de32db1a5b3, (-40));
(0x19bcb7b68f7e9d, (-40));
(0x1d92c198bf69eb, (-40));
(0x1e8b0b1d8e97e3, (-40));
(0x1c6520aa19a82d, (-40));
(0x17bebff793c467, (-40));
(0x11cf0ff9aed34d, (-40));
(0x17d3f79b45ddaf, (-41));
(0x1c31941b488c34, (-42));
(0x1d1e4876e3da81, (-43));
(0x19bcb7b68f7e9d, (-44));
(0x12dfe4dfb64199, (-45));
(0x15cb64017d6176, (-47));
(0x11e3779b97f4a7, (-49));
(0x10000000000000, (-52))];
[(0x1a400000000000, (-45));
(0x1f6b158015297a, (-44));
(0x1f9d3277fb6567, (-43));
(0x1b91eda596cc97, (-42));
(0x1539321c52c376, (-41));
(0x1d2ee74fb21f2e, (-41));
(0x120e62c05b8117, (-40));
(0x1433cfa3e82ce4, (-40));
(0x147d2c7cf4beb7, (-40));
(0x12d8dbae947ae0, (-40));
(0x1f696e22f77775, (-41));
(0x17a41fa3df5235, (-41));
(0x1ff7f6fdbe2ae8, (-42));
(0x13428b77d9123b, (-42));
(0x146da1eafcaf6d, (-43));
(0x12b9ff09eeac77, (-44));
(0x1cd4d70e35f5be, (-46));
(0x11bf8c9d2ed1a1, (-47));
(0x1fbfbf7ebc755e, (-50));
(0x10000000000000, (-52))];
[(0x16000000000000, (-48));
(0x11698b311e50fa, (-46));
(0x15effa2a4c88db, (-45));
(0x174ce925823445, (-44));
(0x1583e1e1cccd71, (-43));
(0x1198f7c9e4f79d, (-42));
(0x19cf84064678a4, (-42));
(0x111c3499fc4a7c, (-41));
(0x149dd5382ff72a, (-41));
(0x16a6c1ff0cecab, (-41));
(0x16baff733842ed, (-41));
(0x14d614d448e804, (-41));
(0x116c953a58b60d, (-41));
(0x1a81c8ff191937, (-42));
(0x1240381bb7c6eb, (-42));
(0x169593857da98f, (-43));
(0x18d7f468524e83, (-44));
(0x17e7de891c727d, (-45));
(0x139f152d0f5470, (-46));
(0x1a532c32c23dd4, (-48));
(0x1a887293fd6f34, (-50));
(0x10000000000000, (-52))];
[(0x10000000000000, (-52));
(0x132eee75770416, (-50));
(0x1fcfdbc999e97d, (-49));
(0x150aa7f6895f9d, (-47));
(0x178676f0cbfda6, (-46));
(0x16edf8ef560c28, (-45));
(0x13db8b93837642, (-44));
(0x1ef2220f4f0aa2, (-44));
(0x15e1cb4379e577, (-43));
(0x1c3fe28c667404, (-43));
(0x10b670dab9fb86, (-42));
(0x122b27d27997cd, (-42));
(0x122b27d27997cd, (-42));
(0x10b670dab9fb86, (-42));
(0x1c3fe28c667404, (-43));
(0x15e1cb4379e577, (-43));
(0x1ef2220f4f0aa2, (-44));
(0x13db8b93837642, (-44));
(0x16edf8ef560c28, (-45));
(0x178676f0cbfda6, (-46));
(0x150aa7f6895f9d, (-47));
(0x1fcfdbc999e97d, (-49));
(0x132eee75770416, (-50));
(0x10000000000000, (-52))]];
   [[(0x10000000000000, (-52))];
[(0x13800000000000, (-46));
(0x18fae0c15ad389, (-49));
(0x10000000000000, (-52))];
[(0x1f480000000000, (-43));
(0x142a6c9ac74a8b, (-44));
(0x135fe592ec53a6, (-46));
(0x18d1c0be7f20ab, (-49));
(0x10000000000000, (-52))];
[(0x138d0000000000, (-40));
(0x1327e0e315ecaf, (-41));
(0x1edf50d5a3521c, (-43));
(0x13c62c66f955e5, (-44));
(0x12ff9434b34638, (-46));
(0x187eb1990b697a, (-49));
(0x10000000000000, (-52))];
[(0x19230000000000, (-39));
(0x10c20000000000, (-39));
(0x1327e0e315ecaf, (-40));
(0x1285fd4cfb97aa, (-41));
(0x1da9429a7600d7, (-43));
(0x12ff9434b34638, (-44));
(0x125f0532c88f1b, (-46));
(0x18000000000000, (-49));
(0x10000000000000, (-52))];
[(0x12fe0000000000, (-38));
(0x1049216f512e81, (-38));
(0x186db226f9c5c1, (-39));
(0x1fe9cb4b9891bf, (-40));
(0x120062a99c44ff, (-40));
(0x114b97ee206b1a, (-41));
(0x1bb1d2dd8df3ff, (-43));
(0x11da83a23c4a60, (-44));
(0x117e2bca46bab9, (-46));
(0x1752e50db3a3a1, (-49));
(0x10000000000000, (-52))];
[(0x12210000000000, (-38));
(0x1361700cc53ef9, (-38));
(0x1247d666371119, (-38));
(0x1e77baaa5bc72b, (-39));
(0x16639b629f74eb, (-39));
(0x1cdddb595a6d23, (-40));
(0x102da26bf7f012, (-40));
(0x1f164eaefeebaf, (-42));
(0x190cfca079205b, (-43));
(0x105cf20924c254, (-44));
(0x105cf20924c254, (-46));
(0x16732f8d0e2f76, (-49));
(0x10000000000000, (-52))];
[(0x16b60000000000, (-39));
(0x1dc76f123b6d6e, (-39));
(0x113e78b7033ed0, (-38));
(0x11be742872d927, (-38));
(0x1043ea7a69470e, (-38));
(0x1a8fa570097543, (-39));
(0x134361465261c3, (-39));
(0x18ad38e06aed7d, (-40));
(0x1ba8f4b3be7f40, (-41));
(0x1abf323b1d376d, (-42));
(0x15d6b6592ae3e1, (-43));
(0x1d1e4876e3da81, (-45));
(0x1df664dcb113f3, (-47));
(0x155aaa002a9d59, (-49));
(0x10000000000000, (-52))];
[(0x12ed0000000000, (-40));
(0x1e480000000000, (-40));
(0x15454f562a72bc, (-39));
(0x1a877ea3677454, (-39));
(0x1d92c198bf69eb, (-39));
(0x1d92c198bf69eb, (-39));
(0x1a8fa570097543, (-39));
(0x15674fa377fad9, (-39));
(0x1ed8871885a8dc, (-40));
(0x13c1d35bd13652, (-40));
(0x1649ff31430385, (-41));
(0x15d6b6592ae3e1, (-42));
(0x1232ed4a4e6891, (-43));
(0x18f7feb7e8e5f5, (-45));
(0x1ab154803544b0, (-47));
(0x14000000000000, (-49));
(0x10000000000000, (-52))];
[(0x14c80000000000, (-42));
(0x146822e40c82fa, (-41));
(0x1158840ea43c21, (-40));
(0x19fe4753dfb08f, (-40));
(0x115e13b12fe9aa, (-39));
(0x14d978a7dd21f9, (-39));
(0x169642b5da3a23, (-39));
(0x16216f693c68b6, (-39));
(0x139ddf1ec89ce7, (-39));
(0x1f696e22f77775, (-40));
(0x16a27799ac6646, (-40));
(0x1d2ee74fb21f2e, (-41));
(0x10adfa1fe41b2e, (-41));
(0x10adfa1fe41b2e, (-42));
(0x1c9af341f48feb, (-44));
(0x14630ac44b0cfd, (-45));
(0x16e9b2675a6626, (-47));
(0x12548eb9151e85, (-49));
(0x10000000000000, (-52))];
[(0x1ce00000000000, (-45));
(0x11c576254bd94c, (-43));
(0x126bad0d625a3f, (-42));
(0x10941bbf3eead2, (-41));
(0x1a6573aed7736c, (-41));
(0x12d00366e8ba9b, (-40));
(0x18328bc5e21119, (-40));
(0x1c3af866dd13f3, (-40));
(0x1df709180e5f30, (-40));
(0x1cf9cbc00a5161, (-40));
(0x1984e38807a1d3, (-40));
(0x146e7f427d6de5, (-40));
(0x1da2bd09b9d17c, (-41));
(0x135ba304b4da7b, (-41));
(0x169593857da98f, (-42));
(0x173d3161015efc, (-43));
(0x14b3f656ef416d, (-44));
(0x1f0630ee1ee8d6, (-46));
(0x129d508edf5880, (-47));
(0x103f81f636b80b, (-49));
(0x10000000000000, (-52))];
[(0x17000000000000, (-48));
(0x12a6c2a38d8f18, (-46));
(0x181b30992284fc, (-45));
(0x1a4d51f42bb785, (-44));
(0x18fca774c3218b, (-43));
(0x150fe9f85bca6f, (-42));
(0x1fe5f2a5236356, (-42));
(0x15e1cb4379e577, (-41));
(0x1b5a3e14585ed4, (-41));
(0x1f443ad987e120, (-41));
(0x10607eb5c796ea, (-40));
(0x1f7809a90d01fe, (-41));
(0x1bb6fdd12a61da, (-41));
(0x16554e9b610e85, (-41));
(0x106958729b6c19, (-41));
(0x15e1cb4379e577, (-42));
(0x1a44e5f1686fec, (-43));
(0x1c1537f5cfb894, (-44));
(0x1a4d51f42bb785, (-45));
(0x150aa7f6895f9d, (-46));
(0x1b8cc9d3952a45, (-48));
(0x1b211b1c70d023, (-50));
(0x10000000000000, (-52))];
[(0x10000000000000, (-52));
(0x13988e1409212e, (-50));
(0x109cfdcd8ed008, (-48));
(0x167e93ddbc0e72, (-47));
(0x19c54789553a30, (-46));
(0x19c54789553a30, (-45));
(0x16edf8ef560c28, (-44));
(0x126272c691db8e, (-43));
(0x1accc4ba7477d3, (-43));
(0x11ddd87c4da537, (-42));
(0x15e1cb4379e577, (-42));
(0x18afad0a792671, (-42));
(0x19b1ba2e2cc76a, (-42));
(0x18afad0a792671, (-42));
(0x15e1cb4379e577, (-42));
(0x11ddd87c4da537, (-42));
(0x1accc4ba7477d3, (-43));
(0x126272c691db8e, (-43));
(0x16edf8ef560c28, (-44));
(0x19c54789553a30, (-45));
(0x19c54789553a30, (-46));
(0x167e93ddbc0e72, (-47));
(0x109cfdcd8ed008, (-48));
(0x13988e1409212e, (-50));
(0x10000000000000, (-52))]];
   [[(0x1a000000000000, (-49));
(0x10000000000000, (-52))];
[(0x16c00000000000, (-44));
(0x150ff9ec3eeef1, (-46));
(0x19ec474a261263, (-49));
(0x10000000000000, (-52))];
[(0x17760000000000, (-41));
(0x1243aa2711787e, (-42));
(0x168bc408e9eaa6, (-44));
(0x14cfc8a5c43b10, (-46));
(0x19b0c25315c2cd, (-49));
(0x10000000000000, (-52))];
[(0x16580000000000, (-39));
(0x18bae13f87f3c5, (-40));
(0x171a4cca15cdb0, (-41));
(0x11d2fb425e2f32, (-42));
(0x15effa2a4c88db, (-44));
(0x144f6273c4660e, (-46));
(0x194c583ada5b52, (-49));
(0x10000000000000, (-52))];
[(0x17bd8000000000, (-38));
(0x114607e16d0220, (-38));
(0x15d979c518083a, (-39));
(0x17d05223bae648, (-40));
(0x160c18acab40aa, (-41));
(0x10f59cd3976cd2, (-42));
(0x14ef6727d9c202, (-44));
(0x138ebf58b30cbc, (-46));
(0x18bd171a07e38a, (-49));
(0x10000000000000, (-52))];
[(0x1f140000000000, (-38));
(0x1c7d0000000000, (-38));
(0x17080a81e6ad81, (-38));
(0x10631b53d2062b, (-38));
(0x14696afa0de9f5, (-39));
(0x160c18acab40aa, (-40));
(0x1459ef644f4f62, (-41));
(0x1f671abbc6a303, (-43));
(0x138ebf58b30cbc, (-44));
(0x128dd15385eaa7, (-46));
(0x18000000000000, (-49));
(0x10000000000000, (-52))];
[(0x1a7f0000000000, (-38));
(0x1dde16c8b8b2f9, (-38));
(0x1dde16c8b8b2f9, (-38));
(0x1a8fa570097543, (-38));
(0x14ff97a452086c, (-38));
(0x1d6cceae2ceb5b, (-39));
(0x122959817a8a6a, (-39));
(0x138efdede66dad, (-40));
(0x121b92e156b838, (-41));
(0x1c31941b488c34, (-43));
(0x11d4cc2768cf9e, (-44));
(0x114c810886c6a5, (-46));
(0x1710ac0b5e5e31, (-49));
(0x10000000000000, (-52))];
[(0x1e480000000000, (-39));
(0x14bb6e7c2c362a, (-38));
(0x192afa4231544c, (-38));
(0x1b43e472601b52, (-38));
(0x1a737d800723f9, (-38));
(0x1700aa97f6a5f6, (-38));
(0x11e852103e2548, (-38));
(0x18de62597accbd, (-39));
(0x1e9b8cbce5e84c, (-40));
(0x1087ae3660bff3, (-40));
(0x1ee2760e45cb22, (-42));
(0x186a9b3b1a4897, (-43));
(0x1f954e20de87e7, (-45));
(0x1f954e20de87e7, (-47));
(0x15e8add236a58e, (-49));
(0x10000000000000, (-52))];
[(0x17610000000000, (-40));
(0x1364a5cc22a2c6, (-39));
(0x1c5354fef8e5e2, (-39));
(0x126bc6d69d8b7e, (-38));
(0x157dbd4fb7cd68, (-38));
(0x169642b5da3a23, (-38));
(0x156d88b71ec764, (-38));
(0x125987dc7619c4, (-38));
(0x1c50727ed027d6, (-39));
(0x139a27e1a3cccf, (-39));
(0x18328bc5e21119, (-40));
(0x1a5f6d3025e1b6, (-41));
(0x1904f72fd628c5, (-42));
(0x143a1b9652a335, (-43));
(0x1af824c86e2ef1, (-45));
(0x1c0ffb7051bb54, (-47));
(0x147e7054af0989, (-49));
(0x10000000000000, (-52))];
[(0x18100000000000, (-42));
(0x185e40c2060a8b, (-41));
(0x15671ed0652b30, (-40));
(0x109b7862058a01, (-39));
(0x170a633832f21d, (-39));
(0x1cccfc063faea5, (-39));
(0x104c7e46400610, (-38));
(0x10c03d3da6f8d2, (-38));
(0x1f4c22a2c0bd9f, (-39));
(0x1a8fa570097543, (-39));
(0x146e7f427d6de5, (-39));
(0x1c5fbfc08fcadb, (-40));
(0x11abdb54bb6624, (-40));
(0x138efdede66dad, (-41));
(0x12f97ee2fcc763, (-42));
(0x1f9fd37a4ff6fb, (-44));
(0x15effa2a4c88db, (-45));
(0x1807feab1c4274, (-47));
(0x12c2fc595456a6, (-49));
(0x10000000000000, (-52))];
[(0x1fa00000000000, (-45));
(0x13fce15b4fd24a, (-43));
(0x154e9cdbaad7fe, (-42));
(0x13c0ffc5aeb2c4, (-41));
(0x103abfacb1e1fd, (-40));
(0x17ec75fbda8a80, (-40));
(0x1fe5f2a5236356, (-40));
(0x135755499166a5, (-39));
(0x15681f1fad93fe, (-39));
(0x15aa2646f41085, (-39));
(0x140ebc98826f3c, (-39));
(0x10f8c6f7334a6d, (-39));
(0x1a3023042f766e, (-40));
(0x12593f3fb95a48, (-40));
(0x1735998b7b47f9, (-41));
(0x1a44e5f1686fec, (-42));
(0x1a44e5f1686fec, (-43));
(0x16c739ede33432, (-44));
(0x10a2868b85a403, (-45));
(0x137b1311fb4922, (-47));
(0x109cfdcd8ed008, (-49));
(0x10000000000000, (-52))];
[(0x18000000000000, (-48));
(0x13eb2856ff771a, (-46));
(0x1a6087e183a59e, (-45));
(0x1d86221306d2f6, (-44));
(0x1ccffb8eb6e94b, (-43));
(0x18fca774c3218b, (-42));
(0x137ff13b0e1962, (-41));
(0x1b9feb13a94ea1, (-41));
(0x11ddd87c4da537, (-40));
(0x152fe9e94cd703, (-40));
(0x171783fa8acc2c, (-40));
(0x1729154ed8e163, (-40));
(0x1560fffa034634, (-40));
(0x1224c320487bda, (-40));
(0x1c3fe28c667404, (-41));
(0x1419938bd759de, (-41));
(0x19ffec4ebd772e, (-42));
(0x1e553e5bdd0b0b, (-43));
(0x1f8ffbf1ce0f6c, (-44));
(0x1ccffb8eb6e94b, (-45));
(0x167e93ddbc0e72, (-46));
(0x1cc665b0328621, (-48));
(0x1bb67ae8584caa, (-50));
(0x10000000000000, (-52))];
[(0x10000000000000, (-52));
(0x14000000000000, (-50));
(0x11520cd1372fea, (-48));
(0x17faaa12d4c51c, (-47));
(0x1c1e38d52b120f, (-46));
(0x1ccffb8eb6e94b, (-45));
(0x1a4d51f42bb785, (-44));
(0x15aa9a419de351, (-43));
(0x103ff3b1366a7c, (-42));
(0x16554e9b610e85, (-42));
(0x1c3fe28c667404, (-42));
(0x107e82d787b669, (-41));
(0x11d0d550580fd6, (-41));
(0x11d0d550580fd6, (-41));
(0x107e82d787b669, (-41));
(0x1c3fe28c667404, (-42));
(0x16554e9b610e85, (-42));
(0x103ff3b1366a7c, (-42));
(0x15aa9a419de351, (-43));
(0x1a4d51f42bb785, (-44));
(0x1ccffb8eb6e94b, (-45));
(0x1c1e38d52b120f, (-46));
(0x17faaa12d4c51c, (-47));
(0x11520cd1372fea, (-48));
(0x14000000000000, (-50));
(0x10000000000000, (-52))]];
   [[(0x10000000000000, (-52))];
[(0x16c00000000000, (-46));
(0x1afb41f432002d, (-49));
(0x10000000000000, (-52))];
[(0x15540000000000, (-42));
(0x196f6e113c0fde, (-44));
(0x169fe95eb7dd64, (-46));
(0x1ad5336963eefb, (-49));
(0x10000000000000, (-52))];
[(0x1f480000000000, (-40));
(0x1c4b822fd14396, (-41));
(0x1516fe14637c8f, (-42));
(0x190332fecc2246, (-44));
(0x163fa3f3c02961, (-46));
(0x1a887293fd6f34, (-49));
(0x10000000000000, (-52))];
[(0x17bd8000000000, (-38));
(0x1d21f7b175604d, (-39));
(0x1ebe50fe9b7c17, (-40));
(0x1b7f6ccb42ce9d, (-41));
(0x1461f80d56a979, (-42));
(0x182c8166bc235a, (-44));
(0x159f2ae5b3ae7b, (-46));
(0x1a13a9cb996650, (-49));
(0x10000000000000, (-52))];
[(0x155dc000000000, (-37));
(0x10c97103b26c71, (-37));
(0x172cc6e02ef692, (-38));
(0x1bf332b75e0f99, (-39));
(0x1d2a700d6c5b5a, (-40));
(0x19f163e530a0a7, (-41));
(0x133aed0ba9e7d6, (-42));
(0x16eeee8953be07, (-44));
(0x14be7525c2346d, (-46));
(0x1974b2334f2346, (-49));
(0x10000000000000, (-52))];
[(0x189a8000000000, (-37));
(0x17f2827d66688a, (-37));
(0x14b23dddd0900d, (-37));
(0x1fbf21b86cd8d4, (-38));
(0x1589734f44647c, (-38));
(0x19af2c5dc32d05, (-39));
(0x1aa7613b13a9f4, (-40));
(0x17b56407c7dac9, (-41));
(0x11abdb54bb6624, (-42));
(0x154ff9fe7ec745, (-44));
(0x139d739af0d7b7, (-46));
(0x18a85c24f70659, (-49));
(0x10000000000000, (-52))];
[(0x12ed0000000000, (-37));
(0x1664ae6a52127e, (-37));
(0x179cc39c9a01fb, (-37));
(0x16430ee9d5b88e, (-37));
(0x12c813728b0427, (-37));
(0x1c50727ed027d6, (-38));
(0x12fe67fee3466e, (-38));
(0x1686cef84a2218, (-39));
(0x17607ffea191c3, (-40));
(0x14e8b312d0da76, (-41));
(0x1f857f8529c2f2, (-43));
(0x135737d0f14724, (-44));
(0x123c0d99c17435, (-46));
(0x17aa10d193c22c, (-49));
(0x10000000000000, (-52))];
[(0x13df4000000000, (-38));
(0x1c5354fef8e5e2, (-38));
(0x11f45ede44d8b0, (-37));
(0x1463688b0b4cbf, (-37));
(0x14d2fb194e089b, (-37));
(0x132a692a99b9d6, (-37));
(0x1fc85ca296723a, (-38));
(0x17b07c6ed99795, (-38));
(0x1f9b88779675c4, (-39));
(0x12be4652143fab, (-39));
(0x138efdede66dad, (-40));
(0x11b0fe9d7a3563, (-41));
(0x1b23291b2f3f58, (-43));
(0x110e90598da2ed, (-44));
(0x109a19e69f4bee, (-46));
(0x16732f8d0e2f76, (-49));
(0x10000000000000, (-52))];
[(0x1c930000000000, (-40));
(0x18851ef6fdf1b0, (-39));
(0x129149c9e3c1a7, (-38));
(0x191b9e6c8a927b, (-38));
(0x1e8c3b212af205, (-38));
(0x10cce858fa7b35, (-37));
(0x10c03d3da6f8d2, (-37));
(0x1e4db775dc4356, (-38));
(0x18d87c94d67327, (-38));
(0x126ab4d55286f4, (-38));
(0x18929758200c9d, (-39));
(0x1d4df7bdee51ff, (-40));
(0x1eecbfd447f2c0, (-41));
(0x1c763e547b2b15, (-42));
(0x165c9d0fe9e508, (-43));
(0x1d053d51dd31a0, (-45));
(0x1d6e9fc396fea8, (-47));
(0x14f9e6bbc4ecb3, (-49));
(0x10000000000000, (-52))];
[(0x1bac0000000000, (-42));
(0x1cd9949ea7fd25, (-41));
(0x1a21c7f0756c56, (-40));
(0x14f3c1ee75ade8, (-39));
(0x1e1a71bb85e532, (-39));
(0x138899f2faf946, (-38));
(0x170543e5b7c186, (-38));
(0x18b7e63ad9a584, (-38));
(0x1838c89e9cbbce, (-38));
(0x15aa2646f41085, (-38));
(0x11aa2fffbec919, (-38));
(0x1a3023042f766e, (-39));
(0x1191458c5b2b60, (-39));
(0x152fe9e94cd703, (-40));
(0x16bfeec4e5c848, (-41));
(0x1572db3cff8025, (-42));
(0x1165ac32402bb0, (-43));
(0x178676f0cbfda6, (-45));
(0x192649159d478b, (-47));
(0x132eee75770416, (-49));
(0x10000000000000, (-52))];
[(0x11400000000000, (-44));
(0x165cbc8b4bbe19, (-43));
(0x187adf76a9cbcf, (-42));
(0x17573a96f4cd24, (-41));
(0x13c0ffc5aeb2c4, (-40));
(0x1e0d198a393b4d, (-40));
(0x14b7f04ebefaf8, (-39));
(0x1a0b77eea3f709, (-39));
(0x1df69284c67691, (-39));
(0x1f9ead102d900e, (-39));
(0x1ea3709b581793, (-39));
(0x1b40bbbbb663b4, (-39));
(0x1638a61104d065, (-39));
(0x10901182610250, (-39));
(0x1678ede394d8ec, (-40));
(0x1b93ac29dac955, (-41));
(0x1e553e5bdd0b0b, (-42));
(0x1d86221306d2f6, (-43));
(0x18f3c9d1487605, (-44));
(0x11c88e29df1634, (-45));
(0x1458d455549c1a, (-47));
(0x10f876ccdf6cd9, (-49));
(0x10000000000000, (-52))];
[(0x19000000000000, (-48));
(0x1536948017480f, (-46));
(0x1cc00000000000, (-45));
(0x107c54ecf24783, (-43));
(0x10811ff62f36f3, (-42));
(0x1d6814acfefd10, (-42));
(0x179c451fa03b4a, (-41));
(0x113c4b9a28bdd5, (-40));
(0x170543e5b7c186, (-40));
(0x1c3fe28c667404, (-40));
(0x1ff0db8ad44edd, (-40));
(0x10aa44d41e3418, (-39));
(0x100f145cdbfca2, (-39));
(0x1c919a9033c704, (-40));
(0x176c5cbb2439d5, (-40));
(0x11a7ed97c00882, (-40));
(0x185fed89d19fbb, (-41));
(0x1ea414a0486dec, (-42));
(0x1165ac32402bb0, (-42));
(0x11a4d93498fe3c, (-43));
(0x1f6fdb5b04996e, (-45));
(0x17faaa12d4c51c, (-46));
(0x1e000000000000, (-48));
(0x1c48c6001f0abf, (-50));
(0x10000000000000, (-52))];
[(0x10000000000000, (-52));
(0x1465655f122ff6, (-50));
(0x12071b0abcd838, (-48));
(0x197ebeb6d6bbf3, (-47));
(0x1e914ad5ee000f, (-46));
(0x10079e2fbd258c, (-44));
(0x1dfd2a8866f4c9, (-44));
(0x195863bed6b464, (-43));
(0x1387a3d630caa7, (-42));
(0x1b9e8f056ee3ca, (-42));
(0x120170b85beddb, (-41));
(0x15b731b63000bc, (-41));
(0x18475e388a735f, (-41));
(0x1931fe03f7fbde, (-41));
(0x18475e388a735f, (-41));
(0x15b731b63000bc, (-41));
(0x120170b85beddb, (-41));
(0x1b9e8f056ee3ca, (-42));
(0x1387a3d630caa7, (-42));
(0x195863bed6b464, (-43));
(0x1dfd2a8866f4c9, (-44));
(0x10079e2fbd258c, (-44));
(0x1e914ad5ee000f, (-46));
(0x197ebeb6d6bbf3, (-47));
(0x12071b0abcd838, (-48));
(0x1465655f122ff6, (-50));
(0x10000000000000, (-52))]];
   [[(0x1c000000000000, (-49));
(0x10000000000000, (-52))];
[(0x1c700000000000, (-44));
(0x186ffac31b9795, (-46));
(0x1bedb0defaf661, (-49));
(0x10000000000000, (-52))];
[(0x11100000000000, (-40));
(0x18a0aa397a7821, (-42));
(0x1c37c86eeb06ec, (-44));
(0x182fd05f129838, (-46));
(0x1bb67ae8584caa, (-49));
(0x10000000000000, (-52))];
[(0x12fe0000000000, (-38));
(0x1371a008f2e791, (-39));
(0x10d6bff41f6a54, (-40));
(0x181dfbefbea44c, (-42));
(0x1b8ffb5b2304ea, (-44));
(0x17af78e6da9b30, (-46));
(0x1b597ea47fdda2, (-49));
(0x10000000000000, (-52))];
[(0x17bd8000000000, (-37));
(0x1fd9d266b97f4c, (-38));
(0x12a221cf940a66, (-38));
(0x12d39097acd613, (-39));
(0x102da26bf7f012, (-40));
(0x171c9ee3623263, (-42));
(0x1a7b2b07fb8cc4, (-44));
(0x16eeee8953be07, (-46));
(0x1ad5336963eefb, (-49));
(0x10000000000000, (-52))];
[(0x1273e000000000, (-36));
(0x1f0b5cccb8d814, (-37));
(0x17239d4057ffbd, (-37));
(0x1e75324560e776, (-38));
(0x1195b6a2f1271d, (-38));
(0x11a13dd420070f, (-39));
(0x1e38fc4712553f, (-41));
(0x15a492039ef510, (-42));
(0x18fdb3181aff8f, (-44));
(0x15ee274e918855, (-46));
(0x1a2744ce9674f4, (-49));
(0x10000000000000, (-52))];
[(0x12ed0000000000, (-36));
(0x137366c61feabe, (-36));
(0x11d96983677517, (-36));
(0x1d44d86060b8a9, (-37));
(0x15674fa377fad9, (-37));
(0x1bcdd57a39f90a, (-38));
(0x1fdb7faea331bd, (-39));
(0x1fdb7faea331bd, (-40));
(0x1b60542993aa61, (-41));
(0x13c1d35bd13652, (-42));
(0x171dd662a795f3, (-44));
(0x14ad1320e70bb1, (-46));
(0x194c583ada5b52, (-49));
(0x10000000000000, (-52))];
[(0x1a7f0000000000, (-37));
(0x1063e4a0fa7917, (-36));
(0x122400aca6af65, (-36));
(0x1208c3cd0a261b, (-36));
(0x10215c29e0309b, (-36));
(0x19f34fc7694ed7, (-37));
(0x12ba65af08fb7e, (-37));
(0x182402adfae162, (-38));
(0x1b96de7db10195, (-39));
(0x1ba8f4b3be7f40, (-40));
(0x17f449a4613515, (-41));
(0x11845f7422f513, (-42));
(0x14e3ed3c47fdcf, (-44));
(0x132b9817efd0dd, (-46));
(0x183fab8b4d4315, (-49));
(0x10000000000000, (-52))];
[(0x19b78000000000, (-38));
(0x1306abca30c9f0, (-37));
(0x191b9e6c8a927b, (-37));
(0x1dc637e2c6a57a, (-37));
(0x1fe065ff5cced7, (-37));
(0x1ee31f5794aac0, (-37));
(0x1b1ab673d2ac2b, (-37));
(0x158457cfe4825d, (-37));
(0x1ed136757a0442, (-38));
(0x13cfa30260b998, (-38));
(0x16b2ffcd3fd57c, (-39));
(0x16ef37ebd9a55f, (-40));
(0x142026f4b8e7bb, (-41));
(0x1e005fff666851, (-43));
(0x125aa9e44c4f1c, (-44));
(0x11698b311e50fa, (-46));
(0x16fa6ea162d0f0, (-49));
(0x10000000000000, (-52))];
[(0x114b8000000000, (-39));
(0x1ea476acba5be6, (-39));
(0x1800f4cc1f8c05, (-38));
(0x10d408871f5ac3, (-37));
(0x1549476c9334ac, (-37));
(0x186ac06fb9b798, (-37));
(0x197aa63af513f3, (-37));
(0x1838c89e9cbbce, (-37));
(0x14fa094335bb45, (-37));
(0x10861e7addf4e5, (-37));
(0x179b06f8aacb90, (-38));
(0x1e6d80c6c41815, (-39));
(0x1191458c5b2b60, (-39));
(0x11fc391a8ee0e8, (-40));
(0x1016246dbfa01c, (-41));
(0x189a71ba85afcd, (-43));
(0x1f1ef8c94666db, (-45));
(0x1ecd41d33eeffd, (-47));
(0x1572969b8b5cd8, (-49));
(0x10000000000000, (-52))];
[(0x1fa00000000000, (-42));
(0x10f20bdc936511, (-40));
(0x1f9a7f857b6271, (-40));
(0x1a21c7f0756c56, (-39));
(0x1365dfe233fa0f, (-38));
(0x1a11f9fc77e740, (-38));
(0x1fe5f2a5236356, (-38));
(0x11d4e75335de2b, (-37));
(0x124176a0529b75, (-37));
(0x11209dbe18ae07, (-37));
(0x1d6fbbb7f20839, (-38));
(0x1720eeebf50676, (-38));
(0x10901182610250, (-38));
(0x158402aaaa805c, (-39));
(0x192c91dee2a310, (-40));
(0x1a44e5f1686fec, (-41));
(0x181b30992284fc, (-42));
(0x130ec1022a151c, (-43));
(0x192649159d478b, (-45));
(0x1a4491e34f47d9, (-47));
(0x13988e1409212e, (-49));
(0x10000000000000, (-52))];
[(0x12c00000000000, (-44));
(0x18e5f26cbf54e1, (-43));
(0x1bf3ebae1ead9f, (-42));
(0x1b5e93b064c6d3, (-41));
(0x17d27142b49a63, (-40));
(0x12aa6a3e0abb19, (-39));
(0x1a8fcdc39442b4, (-39));
(0x1143f2ec49d124, (-38));
(0x149718beb73082, (-38));
(0x1695e954b2d49c, (-38));
(0x16d1d448674252, (-38));
(0x153e72717924f3, (-38));
(0x123586aa67d687, (-38));
(0x1cb0038e38ab26, (-39));
(0x14b415e2f942e5, (-39));
(0x1b4073930183f7, (-40));
(0x103ff3b1366a7c, (-40));
(0x1165ac32402bb0, (-41));
(0x10811ff62f36f3, (-42));
(0x1b39a603178bdf, (-44));
(0x12f50a50109b72, (-45));
(0x1536948017480f, (-47));
(0x11520cd1372fea, (-49));
(0x10000000000000, (-52))];
[(0x1a000000000000, (-48));
(0x1688e1cd6c0e46, (-46));
(0x1f3998f1b1886c, (-45));
(0x125319136a5717, (-43));
(0x12cbeb2531ee40, (-42));
(0x112da63d401ddf, (-41));
(0x1c563d79c67d2a, (-41));
(0x15483b3ab276e3, (-40));
(0x1d4b75c1492ffb, (-40));
(0x128f4d64f097b8, (-39));
(0x15b731b63000bc, (-39));
(0x17820115b1df8f, (-39));
(0x17916a501c60e7, (-39));
(0x15e275013eec44, (-39));
(0x12ce67448e4c72, (-39));
(0x1ddbe45a820103, (-40));
(0x15d5c476c0b27e, (-40));
(0x1d4b75c1492ffb, (-41));
(0x11ebfbfb88cfe8, (-41));
(0x13d5f7d53e246a, (-42));
(0x13a1e28f24b46d, (-43));
(0x111678ad7335af, (-44));
(0x197ebeb6d6bbf3, (-46));
(0x1f3998f1b1886c, (-48));
(0x1cd82b446159f3, (-50));
(0x10000000000000, (-52))];
[(0x10000000000000, (-52));
(0x14c8dc2e42397f, (-50));
(0x12bc2891041ea7, (-48));
(0x1b0aa8901b4454, (-47));
(0x108f3ec67711f3, (-45));
(0x11c21582ef075f, (-44));
(0x11008b4910b180, (-43));
(0x1d72d3d6b70ea3, (-43));
(0x1747f768cc96ed, (-42));
(0x10e9d0b37948b5, (-41));
(0x16b10e855617d2, (-41));
(0x1c359ae6d572ab, (-41));
(0x10496548a4008d, (-40));
(0x117ea63bccbb2f, (-40));
(0x117ea63bccbb2f, (-40));
(0x10496548a4008d, (-40));
(0x1c359ae6d572ab, (-41));
(0x16b10e855617d2, (-41));
(0x10e9d0b37948b5, (-41));
(0x1747f768cc96ed, (-42));
(0x1d72d3d6b70ea3, (-43));
(0x11008b4910b180, (-43));
(0x11c21582ef075f, (-44));
(0x108f3ec67711f3, (-45));
(0x1b0aa8901b4454, (-47));
(0x12bc2891041ea7, (-48));
(0x14c8dc2e42397f, (-50));
(0x10000000000000, (-52))]];
   [[(0x10000000000000, (-52))];
[(0x1a400000000000, (-46));
(0x1cfb95bb9dcc0c, (-49));
(0x10000000000000, (-52))];
[(0x1c700000000000, (-42));
(0x1f8c6f52ca7a62, (-44));
(0x1a1fec66dc7a0c, (-46));
(0x1cd82b446159f3, (-49));
(0x10000000000000, (-52))];
[(0x182c0000000000, (-39));
(0x144ef5bbbe2e34, (-40));
(0x1c29a901f5ec10, (-42));
(0x1f18389a2bad69, (-44));
(0x19bfb076d236ea, (-46));
(0x1c90d29d2d43cd, (-49));
(0x10000000000000, (-52))];
[(0x155dc000000000, (-37));
(0x184b7dc5acb634, (-38));
(0x17d05223bae648, (-39));
(0x13d072107be4f6, (-40));
(0x1b58a3d51f6e74, (-42));
(0x1e3170dc2a8177, (-44));
(0x191f4896388268, (-46));
(0x1c247a85fe81fa, (-49));
(0x10000000000000, (-52))];
[(0x168da000000000, (-36));
(0x105ca0b8742b55, (-36));
(0x14ee1c5712f0c3, (-37));
(0x177248d941897c, (-38));
(0x16c291dad88144, (-39));
(0x12d8dbae947ae0, (-40));
(0x1a02efd589b84e, (-42));
(0x1cdb6d5a2946c0, (-44));
(0x183eae264fdbd1, (-46));
(0x1b916ed68964ec, (-49));
(0x10000000000000, (-52))];
[(0x1ec12000000000, (-36));
(0x1b81efe45a624e, (-36));
(0x15f3a248488a7f, (-36));
(0x1f33665c1a5288, (-37));
(0x13a91190c7ade5, (-37));
(0x15cfb0343e5d12, (-38));
(0x15125afa644e83, (-39));
(0x1172f35cfeb0db, (-40));
(0x18328bc5e21119, (-42));
(0x1b1b478d691cd7, (-44));
(0x171dd662a795f3, (-46));
(0x1ad5336963eefb, (-49));
(0x10000000000000, (-52))];
[(0x1c638000000000, (-36));
(0x1ea9cc136528a0, (-36));
(0x1db6294f8593dd, (-36));
(0x19ddb51284de38, (-36));
(0x14386d3dc2554e, (-36));
(0x1c50727ed027d6, (-37));
(0x11ab4df3ab3332, (-37));
(0x138233e0274a3a, (-38));
(0x12d8dbae947ae0, (-39));
(0x1f5d0c9c3947b2, (-41));
(0x15f57579831cee, (-42));
(0x18f7feb7e8e5f5, (-44));
(0x15bcb04cb65909, (-46));
(0x19ec474a261263, (-49));
(0x10000000000000, (-52))];
[(0x12375000000000, (-36));
(0x177c7ca443ccaa, (-36));
(0x1b2e19fc45b2c4, (-36));
(0x1c5cc488f9e630, (-36));
(0x1abfc4d652e955, (-36));
(0x16cfcc03fa12e2, (-36));
(0x11918b11b79504, (-36));
(0x185cf865219418, (-37));
(0x1e430d988e9bc0, (-38));
(0x10b4c795cde1e4, (-38));
(0x103794105ab0f0, (-39));
(0x1b400c0962551b, (-41));
(0x135da9262bcf28, (-42));
(0x167aaa08b30a74, (-44));
(0x141b20cd3676d2, (-46));
(0x18d1c0be7f20ab, (-49));
(0x10000000000000, (-52))];
[(0x106e2000000000, (-37));
(0x192ce26d015682, (-37));
(0x113e6ba77d001d, (-36));
(0x1549476c9334ac, (-36));
(0x17cc7aa8b414f3, (-36));
(0x182bedb13424cc, (-36));
(0x1654d70ef19f05, (-36));
(0x12c31b3b90c5e4, (-36));
(0x1c9ec7f8a87daa, (-37));
(0x13bff596448bca, (-37));
(0x1888191e474724, (-38));
(0x1b3724b06cb9c7, (-39));
(0x1aad2a9a8a0b92, (-40));
(0x16bfeec4e5c848, (-41));
(0x10811ff62f36f3, (-42));
(0x13aec162048ca4, (-44));
(0x1238fb24b5c35b, (-46));
(0x177ea35d632e43, (-49));
(0x10000000000000, (-52))];
[(0x14c10000000000, (-39));
(0x12f2154fa8016a, (-38));
(0x1ea476acba5be6, (-38));
(0x16391fbe64891d, (-37));
(0x1d25bb8a264e99, (-37));
(0x11615152fa9a2a, (-36));
(0x12e9cfbb3d2cd8, (-36));
(0x12d14bb90a6afc, (-36));
(0x11209dbe18ae07, (-36));
(0x1c80713f1f00f7, (-37));
(0x15a286a438f15e, (-37));
(0x1ddbe45a820103, (-38));
(0x12a213b2ad229a, (-38));
(0x14df8e143f2fae, (-39));
(0x14c47fb47f6875, (-40));
(0x12146472d9e3bd, (-41));
(0x1af39998d711fd, (-43));
(0x10a2868b85a403, (-44));
(0x1015f0f4a885a2, (-46));
(0x15e8add236a58e, (-49));
(0x10000000000000, (-52))];
[(0x11f80000000000, (-41));
(0x13c40000000000, (-40));
(0x12f2154fa8016a, (-39));
(0x1020aa3ff64b50, (-38));
(0x18b13fb71a5f75, (-38));
(0x11254124168896, (-37));
(0x15b9a5a7b940b5, (-37));
(0x1937bfa4519121, (-37));
(0x1ae1d9e3c5bd68, (-37));
(0x1a59903825f80c, (-37));
(0x17c05e5f4480ce, (-37));
(0x13ab0609a8213e, (-37));
(0x1ddbe45a820103, (-38));
(0x14b415e2f942e5, (-38));
(0x1a1771994efb99, (-39));
(0x1daaff9423b9cc, (-40));
(0x1e21fcbf6b263c, (-41));
(0x1af39998d711fd, (-42));
(0x14cb282e670d04, (-43));
(0x1acf3c426e340e, (-45));
(0x1b62d946c44ef2, (-47));
(0x14000000000000, (-49));
(0x10000000000000, (-52))];
[(0x14500000000000, (-44));
(0x1b9968a01bc895, (-43));
(0x1fbd3851b98d12, (-42));
(0x1fdf013d472b3f, (-41));
(0x1c7cad2cb4c67e, (-40));
(0x16f49b2d86b4b0, (-39));
(0x10d334804dda51, (-38));
(0x1692b8d5f738a9, (-38));
(0x1bd6f41768e394, (-38));
(0x1fa7d9353ade97, (-38));
(0x109f5f2187f985, (-37));
(0x1022cc0c50b770, (-37));
(0x1cf35aa28f19bc, (-38));
(0x17f92f283d684f, (-38));
(0x1248e8a4e25f46, (-38));
(0x199a95547724fa, (-39));
(0x106053591085df, (-39));
(0x13024acf21074b, (-40));
(0x13d5f7d53e246a, (-41));
(0x125d48f138908d, (-42));
(0x1d98ce84e3b6f4, (-44));
(0x1427d84f3a2984, (-45));
(0x161453b3496d44, (-47));
(0x11a9dc8f6df103, (-49));
(0x10000000000000, (-52))];
[(0x1b000000000000, (-48));
(0x17e1ed286b2070, (-46));
(0x10e6a95a110ab4, (-44));
(0x1447fe6c14733f, (-43));
(0x154a9032b398f0, (-42));
(0x13efcf72871695, (-41));
(0x10de67ecb9e9b1, (-40));
(0x1a0771ef1e9a5e, (-40));
(0x126e4e884ca226, (-39));
(0x18116f62c23cdc, (-39));
(0x1d13dc31fc63af, (-39));
(0x10496548a4008d, (-38));
(0x10f06eff861f75, (-38));
(0x105d6492322821, (-38));
(0x1d5c7c214ee132, (-39));
(0x186e17ecf600d3, (-39));
(0x12d09d89c16dad, (-39));
(0x1abe09fbf4439f, (-40));
(0x1175f98e997131, (-40));
(0x14d2c18c187b7e, (-41));
(0x167ddfe64d3797, (-42));
(0x15bfcb08935e74, (-43));
(0x12839ec7ea15af, (-44));
(0x1b0aa8901b4454, (-46));
(0x1039985676c298, (-47));
(0x1d64d51e0db1c5, (-50));
(0x10000000000000, (-52))];
[(0x10000000000000, (-52));
(0x152a7fa9d2f8e9, (-50));
(0x137135779c8dca, (-48));
(0x1c9e40c8fdbe80, (-47));
(0x11e2e87d9e9710, (-45));
(0x1397f14d255b89, (-44));
(0x132e54fb9d675f, (-43));
(0x11008b4910b180, (-42));
(0x1b8bed69d4d8d3, (-42));
(0x148832438f09fd, (-41));
(0x1c4d2aaa8a8145, (-41));
(0x121a062ff29164, (-40));
(0x158b978ca7de50, (-40));
(0x17e6fffaa516a1, (-40));
(0x18bdc4434b919d, (-40));
(0x17e6fffaa516a1, (-40));
(0x158b978ca7de50, (-40));
(0x121a062ff29164, (-40));
(0x1c4d2aaa8a8145, (-41));
(0x148832438f09fd, (-41));
(0x1b8bed69d4d8d3, (-42));
(0x11008b4910b180, (-42));
(0x132e54fb9d675f, (-43));
(0x1397f14d255b89, (-44));
(0x11e2e87d9e9710, (-45));
(0x1c9e40c8fdbe80, (-47));
(0x137135779c8dca, (-48));
(0x152a7fa9d2f8e9, (-50));
(0x10000000000000, (-52))]];
   [[(0x1e000000000000, (-49));
(0x10000000000000, (-52))];
[(0x11800000000000, (-43));
(0x1c0ffb7051bb54, (-46));
(0x1deeea11683f49, (-49));
(0x10000000000000, (-52))];
[(0x182c0000000000, (-40));
(0x10427fcecc7dc9, (-41));
(0x1161e61cb0517a, (-43));
(0x1bcfd6944d4f29, (-46));
(0x1dbb6d5ce3a42e, (-49));
(0x10000000000000, (-52))];
[(0x1f140000000000, (-38));
(0x1d9ab8a4c4cae0, (-39));
(0x17e5997abf5784, (-40));
(0x1feefc7a20afb8, (-42));
(0x1107fe1f005db7, (-43));
(0x1b4f8ad56cf64e, (-46));
(0x1d64d51e0db1c5, (-49));
(0x10000000000000, (-52))];
[(0x168da000000000, (-36));
(0x1c14a8ec7e1714, (-37));
(0x1e9205873a2f3d, (-38));
(0x1cca17b07cbfbc, (-39));
(0x1715386282558b, (-40));
(0x1ec6f5d8adc764, (-42));
(0x10737b404748fe, (-43));
(0x1a8f13dc93da45, (-46));
(0x1ce9e5ec2bda7f, (-49));
(0x10000000000000, (-52))];
[(0x1480c000000000, (-35));
(0x1fe52387063470, (-36));
(0x160ff1d0d7e7ae, (-36));
(0x1b054a8a6308b2, (-37));
(0x1d14eaf05326c3, (-38));
(0x1b341535ee9d40, (-39));
(0x15c3442b254a9a, (-40));
(0x1d14eaf05326c3, (-42));
(0x1f4cca2ec87002, (-44));
(0x198e6a5b547377, (-46));
(0x1c48c6001f0abf, (-49));
(0x10000000000000, (-52))];
[(0x18d71000000000, (-35));
(0x177d32d3d3bc18, (-35));
(0x13ee5e3fce8d9b, (-35));
(0x1e54a3dca37ff6, (-36));
(0x14a32b1c5d8ed6, (-36));
(0x18fceb27626f55, (-37));
(0x1ab697f6863cf4, (-38));
(0x18eeaff727f49f, (-39));
(0x13fd88ec4ebf77, (-40));
(0x1ae4da5a4000cd, (-42));
(0x1d47474caed13d, (-44));
(0x184d82d583b13d, (-46));
(0x1b7ed6159fadc7, (-49));
(0x10000000000000, (-52))];
[(0x14d18000000000, (-35));
(0x1789e485c1e953, (-35));
(0x17f877fe7e3199, (-35));
(0x1608e157af7eb7, (-35));
(0x124a410f9f85f5, (-35));
(0x1b60ea37fea40f, (-36));
(0x126ab4d55286f4, (-36));
(0x162643242c84d2, (-37));
(0x17a0479e0d5a79, (-38));
(0x1619a5ccc96ebf, (-39));
(0x11d6e510cafcda, (-40));
(0x1846c1b2a942fd, (-42));
(0x1ade23a8116e30, (-44));
(0x16cc4b7270baaa, (-46));
(0x1a887293fd6f34, (-49));
(0x10000000000000, (-52))];
[(0x18a53000000000, (-36));
(0x10827c624fbd08, (-35));
(0x13e955710b7ebb, (-35));
(0x15b9a5a7b940b5, (-35));
(0x1581bfedba0b9d, (-35));
(0x1356edc1597b5a, (-35));
(0x1f94d52ffbce50, (-36));
(0x175e4ab005423e, (-36));
(0x1f3a2c71c0fce9, (-37));
(0x12bc81110d648c, (-37));
(0x1407adbb7238c8, (-38));
(0x12dcf32bb7fe1f, (-39));
(0x1ecda46373e16e, (-41));
(0x154e9cdbaad7fe, (-42));
(0x181b30992284fc, (-44));
(0x150aa7f6895f9d, (-46));
(0x19608d3c41fb4b, (-49));
(0x10000000000000, (-52))];
[(0x14c10000000000, (-37));
(0x106e2000000000, (-36));
(0x174ecdb7f819ed, (-36));
(0x1dde0029913e18, (-36));
(0x11615152fa9a2a, (-35));
(0x126f36cbc409f5, (-35));
(0x11da168b17858e, (-35));
(0x1f94d52ffbce50, (-36));
(0x197e22ee915f8a, (-36));
(0x12bc81110d648c, (-36));
(0x18fb56c16730ba, (-37));
(0x1e0b84992b552c, (-38));
(0x102b19932ffe64, (-38));
(0x1ecda46373e16e, (-40));
(0x1991890799cffd, (-41));
(0x12146472d9e3bd, (-42));
(0x150aa7f6895f9d, (-44));
(0x130869ed317c78, (-46));
(0x18000000000000, (-49));
(0x10000000000000, (-52))];
[(0x18b50000000000, (-39));
(0x17341d5542cac8, (-38));
(0x13561871b7a8fc, (-37));
(0x1cf452441169bc, (-37));
(0x13a485cf8e5309, (-36));
(0x184a1c4875417f, (-36));
(0x1b7afd2b1ef795, (-36));
(0x1c834e2eee22f9, (-36));
(0x1b292ae4f4090a, (-36));
(0x17c05e5f4480ce, (-36));
(0x130b23ffddf901, (-36));
(0x1bee34cc9ae4ac, (-37));
(0x12a96eb89140a1, (-37));
(0x1698916645a490, (-38));
(0x189970a0f59ba9, (-39));
(0x17d27142b49a63, (-40));
(0x1436b332a14d7e, (-41));
(0x1d6814acfefd10, (-43));
(0x11bb9a7f6de137, (-44));
(0x10c54021de755d, (-46));
(0x165c55827df1d1, (-49));
(0x10000000000000, (-52))];
[(0x14500000000000, (-41));
(0x16e7df5844ecdd, (-40));
(0x168949a37efcb2, (-39));
(0x13b8206f0f1d1c, (-38));
(0x1f14f65d3b377a, (-38));
(0x1641e5913c69ad, (-37));
(0x1d244c4c7a7bd2, (-37));
(0x1183f177d7428b, (-36));
(0x136292cbfd97ca, (-36));
(0x13c8e7c144cb1e, (-36));
(0x12a1d566512e01, (-36));
(0x102f12a70a71fd, (-36));
(0x19e4eaa4dd832f, (-37));
(0x13080b580d6efd, (-37));
(0x199a95547724fa, (-38));
(0x1f5bb13aed0c21, (-39));
(0x115a4bf4bf1194, (-39));
(0x112da63d401ddf, (-40));
(0x1dfd2a8866f4c9, (-42));
(0x169ae1b82b1112, (-43));
(0x1c811f6a9e97a6, (-45));
(0x1c811f6a9e97a6, (-47));
(0x1465655f122ff6, (-49));
(0x10000000000000, (-52))];
[(0x15f00000000000, (-44));
(0x1e780000000000, (-43));
(0x11ed1e188efc27, (-41));
(0x12705385c4fd4c, (-40));
(0x10e6f73a9f3d85, (-39));
(0x1bf94420b54b87, (-39));
(0x151601e7e8641d, (-38));
(0x1d244c4c7a7bd2, (-38));
(0x128bb460c5cdfc, (-37));
(0x15cee5257d4ac3, (-37));
(0x17bde2e7ec26f1, (-37));
(0x17f4a4a81f3b25, (-37));
(0x16688ffafac537, (-37));
(0x136baffba62263, (-37));
(0x1f246fa75bcce4, (-38));
(0x170b1fff3807ae, (-38));
(0x1f5bb13aed0c21, (-39));
(0x1385957356f3c6, (-39));
(0x16161ee1094afa, (-40));
(0x167ddfe64d3797, (-41));
(0x1458318c26c291, (-42));
(0x1008a1abf9354d, (-43));
(0x1560d78ff6f1bc, (-45));
(0x16f2120af475f5, (-47));
(0x12000000000000, (-49));
(0x10000000000000, (-52))];
[(0x1c000000000000, (-48));
(0x1941957eaff565, (-46));
(0x123d96a29b8690, (-44));
(0x165ba29d063cd4, (-43));
(0x17ff3ffcffe7ff, (-42));
(0x16ff47fd1fe8ff, (-41));
(0x13efcf72871695, (-40));
(0x1f8eff6dfc61ec, (-40));
(0x16f49b2d86b4b0, (-39));
(0x1ed73cc1abd568, (-39));
(0x13331ff78ff78e, (-38));
(0x1635579340683c, (-38));
(0x17e6fffaa516a1, (-38));
(0x17f4a4a81f3b25, (-38));
(0x165bcce12e3734, (-38));
(0x136baffba62263, (-38));
(0x1f5a5d849729be, (-39));
(0x17775ff5aff5ad, (-39));
(0x103b63587562d8, (-39));
(0x14a8f20f5fa29e, (-40));
(0x180b6d479bb852, (-41));
(0x195fc234abee32, (-42));
(0x17ff3ffcffe7ff, (-43));
(0x13ff5ffd7febff, (-44));
(0x1c9e40c8fdbe80, (-46));
(0x10d663a9caa399, (-47));
(0x1deeea11683f49, (-50));
(0x10000000000000, (-52))];
[(0x10000000000000, (-52));
(0x158a68a4a8d9f3, (-50));
(0x142641cf569571, (-48));
(0x1e3962b701e02a, (-47));
(0x1343a290dde647, (-45));
(0x1589bc4eb2520c, (-44));
(0x1589bc4eb2520c, (-43));
(0x13853f4b4456a3, (-42));
(0x102f7f9f1f990c, (-41));
(0x18b94c6d12ded6, (-41));
(0x117b7d6b38a351, (-40));
(0x16f9f234096fd1, (-40));
(0x1c23e221c4a742, (-40));
(0x1016fa56232cd4, (-39));
(0x11335f60d1fafc, (-39));
(0x11335f60d1fafc, (-39));
(0x1016fa56232cd4, (-39));
(0x1c23e221c4a742, (-40));
(0x16f9f234096fd1, (-40));
(0x117b7d6b38a351, (-40));
(0x18b94c6d12ded6, (-41));
(0x102f7f9f1f990c, (-41));
(0x13853f4b4456a3, (-42));
(0x1589bc4eb2520c, (-43));
(0x1589bc4eb2520c, (-44));
(0x1343a290dde647, (-45));
(0x1e3962b701e02a, (-47));
(0x142641cf569571, (-48));
(0x158a68a4a8d9f3, (-50));
(0x10000000000000, (-52))]];
   [[(0x10000000000000, (-52))];
[(0x1e000000000000, (-46));
(0x1efbdeb14f4ed9, (-49));
(0x10000000000000, (-52))];
[(0x12980000000000, (-41));
(0x1348b834fd9bcf, (-43));
(0x1ddfeedca22e34, (-46));
(0x1edac054c8f94c, (-49));
(0x10000000000000, (-52))];
[(0x12210000000000, (-38));
(0x1c71665d945ce2, (-40));
(0x126fd49c0102a3, (-41));
(0x130a9eb7596cfe, (-43));
(0x1d7fba9334d105, (-46));
(0x1e98180e9b47f1, (-49));
(0x10000000000000, (-52))];
[(0x1273e000000000, (-36));
(0x138d8a4c8d34c1, (-37));
(0x11e51d1634791a, (-38));
(0x1bd6c9abab3c2c, (-40));
(0x11f8525cc2208e, (-41));
(0x128f311d1cd2c8, (-43));
(0x1cdf6068aab67c, (-46));
(0x1e3307cc56cf5b, (-49));
(0x10000000000000, (-52))];
[(0x168da000000000, (-35));
(0x1e69278441bde5, (-36));
(0x1220428e6b5140, (-36));
(0x12f57e1835b460, (-37));
(0x113479049d7d6a, (-38));
(0x1aa7613b13a9f4, (-40));
(0x113479049d7d6a, (-41));
(0x11d7fe34e7405a, (-43));
(0x1bfedb67be13b2, (-46));
(0x1daa2fefaae1d7, (-49));
(0x10000000000000, (-52))];
[(0x11f0a800000000, (-34));
(0x1db6294f8593dd, (-35));
(0x1608e157af7eb7, (-35));
(0x1d2f87459a5333, (-36));
(0x112bdca0781a01, (-36));
(0x11cf0ff9aed34d, (-37));
(0x101801c951eb96, (-38));
(0x18eeaff727f49f, (-40));
(0x1029481e8f2789, (-41));
(0x10e766ac5e042b, (-43));
(0x1ade23a8116e30, (-46));
(0x1cfb95bb9dcc0c, (-49));
(0x10000000000000, (-52))];
[(0x13846800000000, (-34));
(0x136b1b9a9cd067, (-34));
(0x116b81e4a380bf, (-34));
(0x1c2fd697cae1b6, (-35));
(0x1488afa9fefb0b, (-35));
(0x1ad8ce786d8f2e, (-36));
(0x1f52f638e2078c, (-37));
(0x102cf95caa015a, (-37));
(0x1d3c5d46284b50, (-39));
(0x16bdabe17deebd, (-40));
(0x1dbb7dc6a7a56b, (-42));
(0x1f81554e1c4c74, (-44));
(0x197d2d0524285b, (-46));
(0x1c247a85fe81fa, (-49));
(0x10000000000000, (-52))];
[(0x1ded2800000000, (-35));
(0x11a64daf44b4a8, (-34));
(0x12d0871533af3f, (-34));
(0x122d353288642d, (-34));
(0x1fdcb3090d585f, (-35));
(0x1952498ec9ae5a, (-35));
(0x12355d3aa8f467, (-35));
(0x179b06f8aacb90, (-36));
(0x1b6d5cf7538ee9, (-37));
(0x1c53a1f7335aad, (-38));
(0x19b4bfda57efa1, (-39));
(0x142a5d54c10c96, (-40));
(0x1ab5b80b00a3d3, (-42));
(0x1ccffb8eb6e94b, (-44));
(0x17dbe4d7336f1d, (-46));
(0x1b211b1c70d023, (-49));
(0x10000000000000, (-52))];
[(0x106e2000000000, (-35));
(0x16d12c2f8fcaa7, (-35));
(0x1c987cff786ffd, (-35));
(0x1041f4a1234435, (-34));
(0x10d408871f5ac3, (-34));
(0x1fc48803a5c754, (-35));
(0x1b59aba9b853b8, (-35));
(0x15748ff16f5245, (-35));
(0x1e98a893c24041, (-36));
(0x13bff596448bca, (-36));
(0x16f27e6ed1b031, (-37));
(0x17cc97101cd3ba, (-38));
(0x15c7fdb4568f20, (-39));
(0x114f592bfe64b0, (-40));
(0x17573a96f4cd24, (-42));
(0x19c54789553a30, (-44));
(0x15fa2dc67adf4d, (-46));
(0x19ec474a261263, (-49));
(0x10000000000000, (-52))];
[(0x19f14000000000, (-37));
(0x152e8ed3b83e55, (-36));
(0x1f0cd43f94e9fe, (-36));
(0x1499f587868364, (-35));
(0x18e3aacd4e5e69, (-35));
(0x1b7afd2b1ef795, (-35));
(0x1bca7b9ce6e128, (-35));
(0x19c45a9b16cb2d, (-35));
(0x15e5d2a999b8a5, (-35));
(0x1108755551fe50, (-35));
(0x1830429fe3bebb, (-36));
(0x1f3a2c71c0fce9, (-37));
(0x1237aaf45b5078, (-37));
(0x130df9dc1975fa, (-38));
(0x11aab9d7b91449, (-39));
(0x1c9621833f1faa, (-41));
(0x13b9fd7720c9a3, (-42));
(0x166e31d803d33e, (-44));
(0x13d7d7af35c95b, (-46));
(0x187eb1990b697a, (-49));
(0x10000000000000, (-52))];
[(0x1d330000000000, (-39));
(0x1c2b9c0c5ebbdf, (-38));
(0x1826aad2d244ce, (-37));
(0x12a2080781c22a, (-36));
(0x1a19604d088253, (-36));
(0x10b16c2ced4f42, (-35));
(0x13953370d16c48, (-35));
(0x151fd6c9b06a63, (-35));
(0x14fc24b07b785d, (-35));
(0x1334a1c6238bb7, (-35));
(0x102f12a70a71fd, (-35));
(0x19126bbea30b0b, (-36));
(0x11cd6151584a30, (-36));
(0x171438b8516ff5, (-37));
(0x1b282f7afa234c, (-38));
(0x1cc6b737347abc, (-39));
(0x1b294b4f995abf, (-40));
(0x167ddfe64d3797, (-41));
(0x1ff7e2f8b1019f, (-43));
(0x12da97ceee8dd3, (-44));
(0x11748e8b5cd9fc, (-46));
(0x16cdb2bbb212eb, (-49));
(0x10000000000000, (-52))];
[(0x16da0000000000, (-41));
(0x1a62ff86ba12ff, (-40));
(0x1a9d343f607f2c, (-39));
(0x17e740edf5606f, (-38));
(0x135d29793deb77, (-37));
(0x1c8cefc719d40d, (-37));
(0x134685f90b6561, (-36));
(0x17f142a208c5c0, (-36));
(0x1b70fd2bd1f02c, (-36));
(0x1d13dc31fc63af, (-36));
(0x1c834e2eee22f9, (-36));
(0x19e002ffffd37a, (-36));
(0x15b683f9eb534d, (-36));
(0x10d19b8cccafdc, (-36));
(0x17fc010355de2b, (-37));
(0x1f5bb13aed0c21, (-38));
(0x12b0d27b5ea52b, (-38));
(0x14297b7af9e9e5, (-39));
(0x137a7736f3436a, (-40));
(0x109c78e38cb33b, (-41));
(0x187deda06eb26c, (-43));
(0x1e3bc476d73e46, (-45));
(0x1d9f64731022b3, (-47));
(0x14c8dc2e42397f, (-49));
(0x10000000000000, (-52))];
[(0x17a00000000000, (-44));
(0x10c14a752d4de5, (-42));
(0x1427370df2a080, (-41));
(0x1535eac8cc5f8e, (-40));
(0x13ea88fb3f4627, (-39));
(0x10e6f73a9f3d85, (-38));
(0x1a2ac046514da3, (-38));
(0x12989857ea4224, (-37));
(0x1861bbb039dbdd, (-37));
(0x1d96b755529f41, (-37));
(0x10a801ae704e2d, (-36));
(0x116bf3036ccf5a, (-36));
(0x10f06eff861f75, (-36));
(0x1e9da2e8a64792, (-37));
(0x19b0ec9d25050b, (-37));
(0x13fbd2fc663924, (-37));
(0x1cbd8064353b99, (-38));
(0x13089fda113809, (-38));
(0x1719388c00eb3d, (-39));
(0x1980d0ed990a40, (-40));
(0x195fc234abee32, (-41));
(0x16727bf0c34a9f, (-42));
(0x1151823ea65344, (-43));
(0x169fe95eb7dd64, (-45));
(0x17cfcf9f0d5806, (-47));
(0x12548eb9151e85, (-49));
(0x10000000000000, (-52))];
[(0x1d000000000000, (-48));
(0x1aa7bb926a0be1, (-46));
(0x13a1945190ac91, (-44));
(0x188ea034b18622, (-43));
(0x1aec2b625ee68f, (-42));
(0x1a60eb5bbf0f70, (-41));
(0x17677d2cb69dcd, (-40));
(0x12faaec4e47c6a, (-39));
(0x1c531f56774bd5, (-39));
(0x138bbff5c48649, (-38));
(0x1909b3c13e6f9e, (-38));
(0x1dd8df43c63f2c, (-38));
(0x1095bec6579829, (-37));
(0x11335f60d1fafc, (-37));
(0x10a78c1298c2cb, (-37));
(0x1e19e6e96f7739, (-38));
(0x195d7e2049bb8a, (-38));
(0x13e5ea2d2ed4c8, (-38));
(0x1cfdc2a9dc813e, (-39));
(0x138bbff5c48649, (-39));
(0x18473f6eaf6592, (-40));
(0x1b9b2cc14c57e0, (-41));
(0x1c7dfc8f7a2447, (-42));
(0x1a60eb5bbf0f70, (-43));
(0x1589bc4eb2520c, (-44));
(0x1e3962b701e02a, (-46));
(0x11732e8164279e, (-47));
(0x1e768d399dc46f, (-50));
(0x10000000000000, (-52))];
[(0x10000000000000, (-52));
(0x15e8add236a58e, (-50));
(0x14db4da6bac4aa, (-48));
(0x1fdbeba917c3f5, (-47));
(0x14b16d0091eb1d, (-45));
(0x1797fea4ca0c66, (-44));
(0x18148b35155fd9, (-43));
(0x164b422f6f19a8, (-42));
(0x12e6905796f290, (-41));
(0x1d8cf56cc9d32e, (-41));
(0x15695554ab4a15, (-40));
(0x1cdf0741a20dca, (-40));
(0x122a16317ed431, (-39));
(0x155fbdff9a19b7, (-39));
(0x178d90f383c835, (-39));
(0x18534f2867111a, (-39));
(0x178d90f383c835, (-39));
(0x155fbdff9a19b7, (-39));
(0x122a16317ed431, (-39));
(0x1cdf0741a20dca, (-40));
(0x15695554ab4a15, (-40));
(0x1d8cf56cc9d32e, (-41));
(0x12e6905796f290, (-41));
(0x164b422f6f19a8, (-42));
(0x18148b35155fd9, (-43));
(0x1797fea4ca0c66, (-44));
(0x14b16d0091eb1d, (-45));
(0x1fdbeba917c3f5, (-47));
(0x14db4da6bac4aa, (-48));
(0x15e8add236a58e, (-50));
(0x10000000000000, (-52))]];
   [[(0x10000000000000, (-48));
(0x10000000000000, (-52))];
[(0x15400000000000, (-43));
(0x1feffbfdfebf1f, (-46));
(0x1feffbfdfebf1f, (-49));
(0x10000000000000, (-52))];
[(0x10bc0000000000, (-39));
(0x1515552a2925f0, (-41));
(0x151fe7c35a9dfa, (-43));
(0x1fafdba507ecf8, (-46));
(0x1fbfbf7ebc755e, (-49));
(0x10000000000000, (-52))];
[(0x189a8000000000, (-37));
(0x15eab2067c01b8, (-38));
(0x1091497d5752d7, (-39));
(0x14bffe7534605d, (-41));
(0x14bffe7534605d, (-43));
(0x1f2f9964682378, (-46));
(0x1f6eb62d27730c, (-49));
(0x10000000000000, (-52))];
[(0x1480c000000000, (-35));
(0x17d27f142b8e0b, (-36));
(0x18409bc9430628, (-37));
(0x15637a623a0834, (-38));
(0x1012a720927f16, (-39));
(0x141750e8b71edc, (-41));
(0x14216420369e4f, (-43));
(0x1e6f31ed8148fb, (-46));
(0x1efbdeb14f4ed9, (-49));
(0x10000000000000, (-52))];
[(0x15873000000000, (-34));
(0x1f2968cad7407a, (-35));
(0x141d654561671f, (-35));
(0x1709aae237cd13, (-36));
(0x17384a45228a47, (-37));
(0x145b7141d3ce55, (-38));
(0x1e8929e2bdb580, (-40));
(0x131f4c38ef44b3, (-41));
(0x1345ff10ea14fa, (-43));
(0x1d6e9fc396fea8, (-46));
(0x1e65b9edeba38d, (-49));
(0x10000000000000, (-52))];
[(0x1e5c3000000000, (-34));
(0x1a9c0293b98629, (-34));
(0x15025e47d03056, (-34));
(0x1dd5c9b7874bb0, (-35));
(0x12fbcedf9eb997, (-35));
(0x15868121cc13f9, (-36));
(0x15914c7b8d5722, (-37));
(0x12df22ec1bac3e, (-38));
(0x1c5ce662be98d0, (-40));
(0x11ddefe1865452, (-41));
(0x123085b5f14de8, (-43));
(0x1c2dda7470ad1c, (-46));
(0x1daa2fefaae1d7, (-49));
(0x10000000000000, (-52))];
[(0x1ded2800000000, (-34));
(0x1f334eba708858, (-34));
(0x1d730eec76ded5, (-34));
(0x19306fe1cdb493, (-34));
(0x1382f017186b09, (-34));
(0x1b500bd7fd6e9b, (-35));
(0x1134933c1d5a38, (-35));
(0x1364da7eb2bed6, (-36));
(0x1364da7eb2bed6, (-37));
(0x1100c1b0ddc292, (-38));
(0x19b4bfda57efa1, (-40));
(0x105b3b07d686f7, (-41));
(0x10e48d9ba37f9f, (-43));
(0x1aacd53ecea14e, (-46));
(0x1cc665b0328621, (-49));
(0x10000000000000, (-52))];
[(0x151fe000000000, (-34));
(0x19eac184f275e0, (-34));
(0x1cd25bd03d62a9, (-34));
(0x1d25bb8a264e99, (-34));
(0x1ad93e51bc5d64, (-34));
(0x1687a84d28964b, (-34));
(0x1133d8d810d2a0, (-34));
(0x17d72888c76f36, (-35));
(0x1ddbe45a820103, (-36));
(0x10cbb072e92091, (-36));
(0x10d41c9cc90335, (-37));
(0x1daecb7edbc5c9, (-39));
(0x16a9ff34aeb648, (-40));
(0x1d425885754d34, (-42));
(0x1ecd41d33eeffd, (-44));
(0x18eb7cb456380d, (-46));
(0x1bb67ae8584caa, (-49));
(0x10000000000000, (-52))];
[(0x159e6000000000, (-35));
(0x1f0cd43f94e9fe, (-35));
(0x142aea7b605d71, (-34));
(0x17d4682a39b2a8, (-34));
(0x19b4a12c52ee92, (-34));
(0x195e9ac5dcc8c2, (-34));
(0x16ed261fd3bd06, (-34));
(0x12f6c8f8701876, (-34));
(0x1cabbebd715f0b, (-35));
(0x13bff596448bca, (-35));
(0x18aff2fbd5aebc, (-36));
(0x1bd3dec6ee096d, (-37));
(0x1c0c2faff9b003, (-38));
(0x18fc19b223c6dd, (-39));
(0x135a65e65ac0c7, (-40));
(0x19778259e19de3, (-42));
(0x1b78b938199721, (-44));
(0x16e9b2675a6626, (-46));
(0x1a751f9447b724, (-49));
(0x10000000000000, (-52))];
[(0x100f4000000000, (-36));
(0x1b006ea200e558, (-36));
(0x14694ebc09d20a, (-35));
(0x1bfcfa4be6688c, (-35));
(0x118200de64bbc4, (-34));
(0x14110098231320, (-34));
(0x151fd6c9b06a63, (-34));
(0x14741e1bc1f16b, (-34));
(0x1238539baecfa4, (-34));
(0x1dd772ea41ed6a, (-35));
(0x166ccf66663fd0, (-35));
(0x1ed59d2ccc97be, (-36));
(0x134f2c3d39b7bd, (-36));
(0x15e507f750fdd2, (-37));
(0x164a3bc24fca10, (-38));
(0x1424b37371891d, (-39));
(0x1fcedd46c18163, (-41));
(0x1571eb04281836, (-42));
(0x17d935fcd37415, (-44));
(0x14a74489a6c65d, (-46));
(0x18fae0c15ad389, (-49));
(0x10000000000000, (-52))];
[(0x11238000000000, (-38));
(0x10f69523c31383, (-37));
(0x1de1112972b88b, (-37));
(0x17b7423d08e847, (-36));
(0x111d8db7ea604a, (-35));
(0x169a3dd2f4728a, (-35));
(0x1b6df326411759, (-35));
(0x1eae2d29a2ea20, (-35));
(0x1fafc22e889f95, (-35));
(0x1e3e15203e7515, (-35));
(0x1aabdfffb336ad, (-35));
(0x15b683f9eb534d, (-35));
(0x1048e2fb707e7a, (-35));
(0x166f72a2620b5c, (-36));
(0x1c441066159091, (-37));
(0x102fc70f0d8509, (-37));
(0x10b7acd1bbd78c, (-38));
(0x1ecc4b65568efc, (-40));
(0x18eab555530cd8, (-41));
(0x1151823ea65344, (-42));
(0x13ff5ffd7febff, (-44));
(0x1223dc474df22a, (-46));
(0x173ce704fb7b23, (-49));
(0x10000000000000, (-52))];
[(0x19980000000000, (-41));
(0x1e3ad294ebf0c0, (-40));
(0x1f389f2102a887, (-39));
(0x1cbf19fc67e33e, (-38));
(0x17e740edf5606f, (-37));
(0x121d001e1db39a, (-36));
(0x192de0504deb64, (-36));
(0x102084b7430de1, (-35));
(0x1319754fb3b590, (-35));
(0x14f56c871a8623, (-35));
(0x15564ccc8f5ef1, (-35));
(0x1429636ad44e0e, (-35));
(0x11ad0fbc1548ad, (-35));
(0x1cb93991a2961a, (-36));
(0x1595b8bdaa114e, (-36));
(0x1de9ee2dd80f25, (-37));
(0x13089fda113809, (-37));
(0x161d7a5c4958f8, (-38));
(0x1747f768cc96ed, (-39));
(0x15f97df24d4fc3, (-40));
(0x1253fc1254b1af, (-41));
(0x1a744be7fc567d, (-43));
(0x1ffefffbffdffe, (-45));
(0x1ebda87f068e4d, (-47));
(0x152a7fa9d2f8e9, (-49));
(0x10000000000000, (-52))];
[(0x19600000000000, (-44));
(0x125cffc1441f9a, (-42));
(0x168ea270d0239f, (-41));
(0x18448481cd1a43, (-40));
(0x1750cb399f79d3, (-39));
(0x1444c81a247e6d, (-38));
(0x1017260ebd8c7d, (-37));
(0x177c50268e383c, (-37));
(0x1fab005624d158, (-37));
(0x13cb50829e7e43, (-36));
(0x16ffaff8f4c61a, (-36));
(0x18e09e2983643e, (-36));
(0x1912f6a1fe02d1, (-36));
(0x178d90f383c835, (-36));
(0x149bded5134f2e, (-36));
(0x10c70aac6450f1, (-36));
(0x195d7e2049bb8a, (-37));
(0x11c0e1a9b874fe, (-37));
(0x16eb6ab230c818, (-38));
(0x1b24dbb78d45b9, (-39));
(0x1d47def0e681f4, (-40));
(0x1c7dfc8f7a2447, (-41));
(0x18acc714b1fe16, (-42));
(0x12a708fae5fb0f, (-43));
(0x17e4f0bed1d2f7, (-45));
(0x18ad8c842be9b4, (-47));
(0x12a79e3a2cd2e5, (-49));
(0x10000000000000, (-52))];
[(0x1e000000000000, (-48));
(0x1c1441d0afdf75, (-46));
(0x1512a266284e81, (-44));
(0x1ae18ed6ac0d56, (-43));
(0x1e1383411584d4, (-42));
(0x1e19ae025ab7d0, (-41));
(0x1b4def84ecbe31, (-40));
(0x16a93bf764c010, (-39));
(0x115359a59fb3af, (-38));
(0x1887a7fdc0b3c7, (-38));
(0x1023b5e01c0d44, (-37));
(0x13cb50829e7e43, (-37));
(0x16aba8b45c59a2, (-37));
(0x18472274e2cfa6, (-37));
(0x18534f2867111a, (-37));
(0x16ce1a35e0a008, (-37));
(0x13fe589c7e8ce3, (-37));
(0x105f88107b9611, (-37));
(0x1900d17c924ea6, (-38));
(0x11c0e1a9b874fe, (-38));
(0x175c9ffddc18ee, (-39));
(0x1c59d883626bd9, (-40));
(0x1f87484d11bd4f, (-41));
(0x1fdaecc5bedde4, (-42));
(0x1ce573d94cd96b, (-43));
(0x1722b3bbe92b19, (-44));
(0x1fdbeba917c3f5, (-46));
(0x120ff8e9d967dc, (-47));
(0x1efbdeb14f4ed9, (-50));
(0x10000000000000, (-52))];
[(0x10000000000000, (-52));
(0x1645640568c1c3, (-50));
(0x1590590a698c4b, (-48));
(0x10c2dd5df1942e, (-46));
(0x162c47cd080ada, (-45));
(0x19c33dee8d4db8, (-44));
(0x1ad08ba17d26b7, (-43));
(0x195662c004963b, (-42));
(0x15f15ff4f8ab1d, (-41));
(0x1189ff498cd064, (-40));
(0x1a03bdfb0f673e, (-40));
(0x11f8e0c74ee03e, (-39));
(0x1733b5402d177e, (-39));
(0x1c0cc1c00f58b8, (-39));
(0x1fce3681fcae6e, (-39));
(0x10ee0616e9feab, (-38));
(0x10ee0616e9feab, (-38));
(0x1fce3681fcae6e, (-39));
(0x1c0cc1c00f58b8, (-39));
(0x1733b5402d177e, (-39));
(0x11f8e0c74ee03e, (-39));
(0x1a03bdfb0f673e, (-40));
(0x1189ff498cd064, (-40));
(0x15f15ff4f8ab1d, (-41));
(0x195662c004963b, (-42));
(0x1ad08ba17d26b7, (-43));
(0x19c33dee8d4db8, (-44));
(0x162c47cd080ada, (-45));
(0x10c2dd5df1942e, (-46));
(0x1590590a698c4b, (-48));
(0x1645640568c1c3, (-50));
(0x10000000000000, (-52))]];
   [[(0x10000000000000, (-52))];
[(0x11000000000000, (-45));
(0x107e0f66afed06, (-48));
(0x10000000000000, (-52))];
[(0x17e80000000000, (-41));
(0x174738af5a0fe7, (-43));
(0x10eff87159f1ee, (-45));
(0x106e825da8fc2b, (-48));
(0x10000000000000, (-52))];
[(0x1a7f0000000000, (-38));
(0x137eb57ee7c46b, (-39));
(0x17ba7f5cd21e4d, (-41));
(0x170520d1d13b8d, (-43));
(0x10bfe16eb26fbd, (-45));
(0x104f3bd03c0a64, (-48));
(0x10000000000000, (-52))];
[(0x1ec12000000000, (-36));
(0x1e8453e7f4760f, (-37));
(0x1a32104cf0c61a, (-38));
(0x13216a9d3d0b43, (-39));
(0x1732fd6464077a, (-41));
(0x1681aa9ade679a, (-43));
(0x106fb9ea007c4c, (-45));
(0x101fe03f61bad0, (-48));
(0x10000000000000, (-52))];
[(0x15873000000000, (-34));
(0x1b1f718f9244cf, (-35));
(0x1e470dbc36e1b6, (-36));
(0x1db3f622bcc79b, (-37));
(0x194eac4a88556b, (-38));
(0x1269ed5187f4b5, (-39));
(0x165479e7693c50, (-41));
(0x15be4c706f6ba2, (-43));
(0x1ffefffbffdffe, (-46));
(0x1fbfbf7ebc755e, (-49));
(0x10000000000000, (-52))];
[(0x13bbec00000000, (-33));
(0x1e71ff00e30382, (-34));
(0x1518bb4de6b5e2, (-34));
(0x1a2ac87e4c7ca3, (-35));
(0x1ce11e139b6e88, (-36));
(0x1c1ee4909b99bb, (-37));
(0x17def5392c315e, (-38));
(0x115e5ffef6b1c6, (-39));
(0x1523f48d842f72, (-41));
(0x14bd4096d3359c, (-43));
(0x1ede6161f38143, (-46));
(0x1f1cd9cceef239, (-49));
(0x10000000000000, (-52))];
[(0x18f04c00000000, (-33));
(0x17058d8fb4c493, (-33));
(0x133d133c72183e, (-33));
(0x1d16038336ba81, (-34));
(0x13d79a95a55d56, (-34));
(0x18550288676f73, (-35));
(0x1aa789d87cb0b5, (-36));
(0x19dbcdfe43a91d, (-37));
(0x15f362760c554a, (-38));
(0x1007d17afee003, (-39));
(0x13a86cc3cf6b87, (-41));
(0x13819058f8de23, (-43));
(0x1d7d8f15df9fa9, (-46));
(0x1e54dd4ce75f1d, (-49));
(0x10000000000000, (-52))];
[(0x1671de00000000, (-33));
(0x186f4ed17dae4f, (-33));
(0x182af11a828bf2, (-33));
(0x15bff6abae8d05, (-33));
(0x11cfbbca7d6781, (-33));
(0x1a82c8bad30612, (-34));
(0x11e15e66959368, (-34));
(0x15c36554987908, (-35));
(0x17c0adc9842b37, (-36));
(0x170b1fff3807ae, (-37));
(0x13a22161952e69, (-38));
(0x1ce41fb49d0dc0, (-40));
(0x11eae19c723391, (-41));
(0x120f244c468165, (-43));
(0x1bdc7bc29f9393, (-46));
(0x1d64d51e0db1c5, (-49));
(0x10000000000000, (-52))];
[(0x1d56f000000000, (-34));
(0x12abee6d4e7df9, (-33));
(0x1598f69974b790, (-33));
(0x16c91acc3cf543, (-33));
(0x15f87e1819967f, (-33));
(0x136056102814bf, (-33));
(0x1f3e4d40964f97, (-34));
(0x16fce35e1bd825, (-34));
(0x1ec724be92f4cd, (-35));
(0x12a96eb89140a1, (-35));
(0x145e239c3b9a79, (-36));
(0x13d5288d6d5b1b, (-37));
(0x11063530aaabc3, (-38));
(0x1956d469753f6f, (-40));
(0x1feca32456d918, (-42));
(0x106adb2e118ce7, (-43));
(0x19fb1339d2c7df, (-46));
(0x1c48c6001f0abf, (-49));
(0x10000000000000, (-52))];
[(0x1c1ab000000000, (-35));
(0x14d50ea432baf3, (-34));
(0x1bfcfa4be6688c, (-34));
(0x1123a286161ded, (-33));
(0x13364e2682faf6, (-33));
(0x13c291f8944eb8, (-33));
(0x12abe648d5a7ea, (-33));
(0x10361d70dc0357, (-33));
(0x19d7f4f14e6d80, (-34));
(0x12df9c990b35f7, (-34));
(0x192d1bdb32b954, (-35));
(0x1e87d7ac46d74c, (-36));
(0x10b8e9c950dd71, (-36));
(0x1067ac9175008d, (-37));
(0x1c7cad2cb4c67e, (-39));
(0x1588bec790faa4, (-40));
(0x1baf7425ea800d, (-42));
(0x1d355362b9359d, (-44));
(0x17d935fcd37415, (-46));
(0x1afb41f432002d, (-49));
(0x10000000000000, (-52))];
[(0x13b5a000000000, (-36));
(0x1108a39e1ab1cd, (-35));
(0x1a83dfa63898f0, (-35));
(0x12bfc060940ea7, (-34));
(0x183d0d7f4ba96c, (-34));
(0x1cc4aede9baed7, (-34));
(0x1f7022caa7c935, (-34));
(0x1fafc22e889f95, (-34));
(0x1d7a0c72103c2d, (-34));
(0x194d7db02a93d8, (-34));
(0x1404b2b71ce60a, (-34));
(0x1d2187f9793395, (-35));
(0x136df8c0c939a0, (-35));
(0x17a62023d0c9c3, (-36));
(0x1a19a3fc60cd75, (-37));
(0x19e60b4b48d4dc, (-38));
(0x16d72638e17671, (-39));
(0x119e6d8c02416e, (-40));
(0x173c2d1adb9f28, (-42));
(0x194b8dd4eee02b, (-44));
(0x1576b096be4ee0, (-46));
(0x1974b2334f2346, (-49));
(0x10000000000000, (-52))];
[(0x13fec000000000, (-38));
(0x14475c2997fe85, (-37));
(0x1252867857464e, (-36));
(0x1de1112972b88b, (-36));
(0x162f247cf100bf, (-35));
(0x1e30558786d601, (-35));
(0x12e91df18da751, (-34));
(0x15e194006d5159, (-34));
(0x176eb9f070bbb1, (-34));
(0x17406746967f4c, (-34));
(0x15627aa3329a3a, (-34));
(0x1238539baecfa4, (-34));
(0x1cb93991a2961a, (-35));
(0x14e641c92a66a6, (-35));
(0x1bfb5683e42ddd, (-36));
(0x11281fd2120d9e, (-36));
(0x1326fbd6c0013c, (-37));
(0x134dbe3cafffe7, (-38));
(0x115f5786f05ee9, (-39));
(0x1b7dfa1b7f0a87, (-41));
(0x12b4bc9df81385, (-42));
(0x1529d653304531, (-44));
(0x12d32968a245d6, (-46));
(0x17aa10d193c22c, (-49));
(0x10000000000000, (-52))];
[(0x1c8c0000000000, (-41));
(0x113a7331b20c51, (-39));
(0x1233636159d3b2, (-38));
(0x1128e9cfcf281b, (-37));
(0x1d415c77e44540, (-37));
(0x16c15b1c8360b7, (-36));
(0x1041d5d4f7f012, (-35));
(0x15707740fd7248, (-35));
(0x1a2f6d4eae7563, (-35));
(0x1db0f8c3edbd65, (-35));
(0x1f4dab194f277b, (-35));
(0x1eb597af137117, (-35));
(0x1c089e88185338, (-35));
(0x17cc0ce960d8b6, (-35));
(0x12c200aa1f55cd, (-35));
(0x1b65c61227eeee, (-36));
(0x127a766fa22cf8, (-36));
(0x16eb6ab230c818, (-37));
(0x19fd06786f8d87, (-38));
(0x1abac339c0f8df, (-39));
(0x18acc714b1fe16, (-40));
(0x1425a09ac33e5b, (-41));
(0x1c7dfc8f7a2447, (-43));
(0x10e5547dd7c8f7, (-44));
(0x1fdbeba917c3f5, (-47));
(0x158a68a4a8d9f3, (-49));
(0x10000000000000, (-52))];
[(0x1b300000000000, (-44));
(0x140f89f6ab266a, (-42));
(0x19251ba8ec739f, (-41));
(0x1ba0743b47b6e6, (-40));
(0x1b21ce4b733c91, (-39));
(0x182249e18ebe3c, (-38));
(0x13a004278a28b3, (-37));
(0x1d60808bd665ce, (-37));
(0x1456d0dcdaee89, (-36));
(0x1a2622d2181583, (-36));
(0x1f4c20b18e0b86, (-36));
(0x11780504ad4de2, (-35));
(0x123559d7aa1bbc, (-35));
(0x11bae47e7a7c16, (-35));
(0x1020296ac4db4c, (-35));
(0x1b6095870ff450, (-36));
(0x15a8dffede6df6, (-36));
(0x1fdf796fd4e7ee, (-37));
(0x15be51ff6560ee, (-37));
(0x1b64e786c3e5c7, (-38));
(0x1fb284ab4e8b04, (-39));
(0x10b871a393533e, (-39));
(0x1fdaecc5bedde4, (-41));
(0x1b07aee824fe06, (-42));
(0x140935e11224d9, (-43));
(0x192fd2432c3acd, (-45));
(0x198b48cc1ce73c, (-47));
(0x12f9422c23c47d, (-49));
(0x10000000000000, (-52))];
[(0x1f000000000000, (-48));
(0x1d870c2cd47a20, (-46));
(0x1690c0dfb47826, (-44));
(0x1d55036466c351, (-43));
(0x10bbbc3bb305c5, (-41));
(0x11174e6f86fcee, (-40));
(0x1fabfb7005bbc9, (-40));
(0x1adfd9dc2c60e5, (-39));
(0x1507514ac3a3fc, (-38));
(0x1e813d66239269, (-38));
(0x1496f7ccff632b, (-37));
(0x19f0cba1e3bca7, (-37));
(0x1e910c60805b55, (-37));
(0x10de0f7b77698b, (-36));
(0x117368d2abb3de, (-36));
(0x10ee0616e9feab, (-36));
(0x1ecba9ec3e103c, (-37));
(0x1a3cfba39d4ed8, (-37));
(0x14e9fafea8aa48, (-37));
(0x1f20f45bde1595, (-38));
(0x1591f7690b8c76, (-38));
(0x1bbb4f170910bd, (-39));
(0x107507f7ba8056, (-39));
(0x11ea913d72eb43, (-40));
(0x11bc7853366929, (-41));
(0x1f8d7d1caa707d, (-43));
(0x18ca46457aff11, (-44));
(0x10c2dd5df1942e, (-45));
(0x12acc2ee19c489, (-47));
(0x1f7efbeb8d4f11, (-50));
(0x10000000000000, (-52))];
[(0x10000000000000, (-52));
(0x16a09e667f3bcc, (-50));
(0x1645640568c1c3, (-48));
(0x119b58598f7c9e, (-46));
(0x17b432f68127d4, (-45));
(0x1c0bfd6ed063fd, (-44));
(0x1dbf878693987b, (-43));
(0x1caa81fbeb1205, (-42));
(0x195662c004963b, (-41));
(0x14b01c9db2f9ce, (-40));
(0x1f5ff381852966, (-40));
(0x162f7278d40d64, (-39));
(0x1d5933cf29ce47, (-39));
(0x12337d85509f65, (-38));
(0x15342456a87449, (-38));
(0x173a3b48cf76d2, (-38));
(0x17f13c37570bcd, (-38));
(0x173a3b48cf76d2, (-38));
(0x15342456a87449, (-38));
(0x12337d85509f65, (-38));
(0x1d5933cf29ce47, (-39));
(0x162f7278d40d64, (-39));
(0x1f5ff381852966, (-40));
(0x14b01c9db2f9ce, (-40));
(0x195662c004963b, (-41));
(0x1caa81fbeb1205, (-42));
(0x1dbf878693987b, (-43));
(0x1c0bfd6ed063fd, (-44));
(0x17b432f68127d4, (-45));
(0x119b58598f7c9e, (-46));
(0x1645640568c1c3, (-48));
(0x16a09e667f3bcc, (-50));
(0x10000000000000, (-52))]];
   [[(0x11000000000000, (-48));
(0x10000000000000, (-52))];
[(0x19800000000000, (-43));
(0x1207fe39ad63a7, (-45));
(0x10f876ccdf6cd9, (-48));
(0x10000000000000, (-52))];
[(0x16b60000000000, (-39));
(0x1ae7d52f246688, (-41));
(0x195de936e9b432, (-43));
(0x11e7efea86d98d, (-45));
(0x10e1c7047b3b50, (-48));
(0x10000000000000, (-52))];
[(0x12ed0000000000, (-36));
(0x1fab3c540652d1, (-38));
(0x1682c63a9cf3a4, (-39));
(0x1a877ea3677454, (-41));
(0x18f7feb7e8e5f5, (-43));
(0x11a7d2b07b1972, (-45));
(0x10bbb307acafda, (-48));
(0x10000000000000, (-52))];
[(0x11f0a800000000, (-34));
(0x138b489b421135, (-35));
(0x12b00dde96ade3, (-36));
(0x1efeb8b72fd22f, (-38));
(0x15eab2067c01b8, (-39));
(0x19c8d1710a5c60, (-41));
(0x184f4f9ebc184d, (-43));
(0x1147a5431ebee8, (-45));
(0x1085d06e1f0517, (-48));
(0x10000000000000, (-52))];
[(0x15873000000000, (-33));
(0x1d262ee2f98285, (-34));
(0x11a451961ba769, (-34));
(0x12fa3ae035b032, (-35));
(0x11fc6d653bd8f0, (-36));
(0x1daceae145af7e, (-38));
(0x14f287ae131277, (-39));
(0x18afcd5dc59830, (-41));
(0x1765a4f7302378, (-43));
(0x10c76587f2fd61, (-45));
(0x103f81f636b80b, (-48));
(0x10000000000000, (-52))];
[(0x11750200000000, (-32));
(0x1c8911246c4142, (-33));
(0x15132645ead125, (-33));
(0x1c0fa507ce9eba, (-34));
(0x10c50c7e55a0fe, (-34));
(0x11e15e66959368, (-35));
(0x10db95ab69c0a4, (-36));
(0x1bc40592cc4c59, (-38));
(0x13a22161952e69, (-39));
(0x174272059d9a58, (-41));
(0x163d89ee691c51, (-43));
(0x10271050342fce, (-45));
(0x1fcfdbc999e97d, (-49));
(0x10000000000000, (-52))];
[(0x13f37000000000, (-32));
(0x1351414de4f5a5, (-32));
(0x1100ad65ebadd9, (-32));
(0x1b351ba9d5a27f, (-33));
(0x13c291f8944eb8, (-33));
(0x19fac33a356645, (-34));
(0x1ec724be92f4cd, (-35));
(0x10528bff725ac6, (-35));
(0x1eb97ffef55f93, (-37));
(0x1958b4d92dba8b, (-38));
(0x12044b2793331c, (-39));
(0x1588bec790faa4, (-41));
(0x14da5824df1164, (-43));
(0x1ecd41d33eeffd, (-46));
(0x1efbdeb14f4ed9, (-49));
(0x10000000000000, (-52))];
[(0x1080e700000000, (-32));
(0x12b43900000000, (-32));
(0x1351414de4f5a5, (-32));
(0x1237953657f11f, (-32));
(0x1f64a9c3f6806c, (-33));
(0x18b33676b96266, (-33));
(0x11b69c61de972f, (-33));
(0x17155b8eee379a, (-34));
(0x1b343ea9be974a, (-35));
(0x1ccde7ff060999, (-36));
(0x1b282f7afa234c, (-37));
(0x16855df177ffe3, (-38));
(0x10268f15acbbfb, (-39));
(0x138cb2a291204e, (-41));
(0x134049240755fe, (-43));
(0x1d0c20c63a59ec, (-46));
(0x1e000000000000, (-49));
(0x10000000000000, (-52))];
[(0x14131000000000, (-33));
(0x1a72447f848000, (-33));
(0x1fbc52329f0000, (-33));
(0x116997bb6d5077, (-32));
(0x1183f177d7428b, (-32));
(0x102b83b222458c, (-32));
(0x1b66f9864ac6a0, (-33));
(0x1549ec8b449d3d, (-33));
(0x1e43d0b5f9fb72, (-34));
(0x139dfd03120590, (-34));
(0x171438b8516ff5, (-35));
(0x187a9d8420c79c, (-36));
(0x17333c6e8eef84, (-37));
(0x13691f14266288, (-38));
(0x1c31e0b7cae560, (-40));
(0x115a4bf4bf1194, (-41));
(0x11748e8b5cd9fc, (-43));
(0x1b0aa8901b4454, (-46));
(0x1cd82b446159f3, (-49));
(0x10000000000000, (-52))];
[(0x12112800000000, (-34));
(0x1b990af9ac49f9, (-34));
(0x1322b9d04934e9, (-33));
(0x183d0d7f4ba96c, (-33));
(0x1c299ea87a93d4, (-33));
(0x1e1980e4349cb0, (-33));
(0x1da3daf4de7614, (-33));
(0x1ae891836592a5, (-33));
(0x168363cbe1190b, (-33));
(0x11561e66347d24, (-33));
(0x1884729e014863, (-34));
(0x1fba7635e38adb, (-35));
(0x12b234dca70977, (-35));
(0x13ef2ff18d747d, (-36));
(0x130f9491b3e5e5, (-37));
(0x10268f15acbbfb, (-38));
(0x17db25f511210a, (-40));
(0x1dff0ffc3fe1fe, (-42));
(0x1efae6ce7a298b, (-44));
(0x18c8b8a52e87a3, (-46));
(0x1b7ed6159fadc7, (-49));
(0x10000000000000, (-52))];
[(0x17fe8000000000, (-36));
(0x1549e5db889c02, (-35));
(0x1108a39e1ab1cd, (-34));
(0x18cd7970c76ee1, (-34));
(0x1088fba084f496, (-33));
(0x14478502f5652b, (-33));
(0x16f2fc15d3a7e8, (-33));
(0x1802dd8657b226, (-33));
(0x17406746967f4c, (-33));
(0x14d7dcb5ad28de, (-33));
(0x1148f7ff1ffdbe, (-33));
(0x1a7b569f3abc04, (-34));
(0x12b16a524793c6, (-34));
(0x183ba1f4bbe8c2, (-35));
(0x1cb56dfe8cc0f7, (-36));
(0x1ee1d2e086e54f, (-37));
(0x1de7b72bcaa1df, (-38));
(0x19c4795be02ccf, (-39));
(0x137099eb8296c5, (-40));
(0x1918c3bbfb6104, (-42));
(0x1ac5150cc7def3, (-44));
(0x16461bece53edd, (-46));
(0x19ec474a261263, (-49));
(0x10000000000000, (-52))];
[(0x1731c000000000, (-38));
(0x1813ca8db90db2, (-37));
(0x164a8fd2941f9d, (-36));
(0x12a58cc3ff994c, (-35));
(0x1c71b1e3a438e5, (-35));
(0x13e92fb8f2f4a0, (-34));
(0x19b4707a5b9914, (-34));
(0x1eb4770309b56e, (-34));
(0x110200e842a6aa, (-33));
(0x117fc6dc36b72e, (-33));
(0x10bb7c64d5ed06, (-33));
(0x1dbbf447dc5415, (-34));
(0x18878ab71548d1, (-34));
(0x12c200aa1f55cd, (-34));
(0x1a870ea480cd87, (-35));
(0x1148f14f9890b9, (-35));
(0x14a8d1696ed490, (-36));
(0x1681b05bc5ea06, (-37));
(0x1629b811975e62, (-38));
(0x1381d9e9813673, (-39));
(0x1e3870e824dd89, (-41));
(0x1425a09ac33e5b, (-42));
(0x1659dfb2994a55, (-44));
(0x138275ffa195c2, (-46));
(0x18154be2773525, (-49));
(0x10000000000000, (-52))];
[(0x1fb80000000000, (-41));
(0x138b7210677ff1, (-39));
(0x1519ad0dacc7bb, (-38));
(0x14595ab8966d6d, (-37));
(0x11c318e7e42dce, (-36));
(0x1c538af53df015, (-36));
(0x14c5cc4d71b00f, (-35));
(0x1c288299cbb5da, (-35));
(0x11b3f3960a8f65, (-34));
(0x14b3863ba8665d, (-34));
(0x168d5a3c3c2a8f, (-34));
(0x16e9679715cde0, (-34));
(0x15b6fc41c29cf8, (-34));
(0x13317ecd6c26ae, (-34));
(0x1f9cd0d9df4ec4, (-35));
(0x18375bd35fef0d, (-35));
(0x11369eab1a2803, (-35));
(0x16a19c1fb3d812, (-36));
(0x1b64e786c3e5c7, (-37));
(0x1e590f4a5b3ef7, (-38));
(0x1e86fc509526df, (-39));
(0x1b965f436f85a5, (-40));
(0x1611e5cf8c6aea, (-41));
(0x1e9aff97718a00, (-43));
(0x11cf4c5649044f, (-44));
(0x107d17041f3dfe, (-46));
(0x15e8add236a58e, (-49));
(0x10000000000000, (-52))];
[(0x1d100000000000, (-44));
(0x15d95143d687f2, (-42));
(0x1bec5e1e098fa4, (-41));
(0x1f4e228801e8fc, (-40));
(0x1f65f37abc36b8, (-39));
(0x1c8c6fb600da33, (-38));
(0x17c0fc94044cd7, (-37));
(0x123616fa034bfa, (-36));
(0x19dc9aeda7c6df, (-36));
(0x111274acc21bc0, (-35));
(0x1503a8bea35de4, (-35));
(0x182a3e6fe2fb63, (-35));
(0x19fe93ff9497aa, (-35));
(0x1a2d1d3c018dcd, (-35));
(0x18addefd5c6e3f, (-35));
(0x15c69794427f65, (-35));
(0x11f6cdc9cedece, (-35));
(0x1baaa6804d4f14, (-36));
(0x13d73b592b8b08, (-36));
(0x1a6b00059a2ce4, (-37));
(0x104256bce9a086, (-37));
(0x12664fdeb61a23, (-38));
(0x1300ca100370ac, (-39));
(0x11bc7853366929, (-40));
(0x1d83cc804c7fe9, (-42));
(0x157808f175c0c4, (-43));
(0x1a8073ebb058e0, (-45));
(0x1a690486573aee, (-47));
(0x13498c97b10540, (-49));
(0x10000000000000, (-52))];
[(0x10000000000000, (-47));
(0x1f000000000000, (-46));
(0x181befbd9d4690, (-44));
(0x1fe990225411e0, (-43));
(0x128d1df1c83e37, (-41));
(0x13526e72e9fa4a, (-40));
(0x124566370ac916, (-39));
(0x1fabfb7005bbc9, (-39));
(0x195662c004963b, (-38));
(0x12cefc4fbfd674, (-37));
(0x1a03bdfb0f673e, (-37));
(0x10cfba321c4b1c, (-36));
(0x145977f26e4cf5, (-36));
(0x171b2e38841509, (-36));
(0x18a2ee56980cfd, (-36));
(0x18addefd5c6e3f, (-36));
(0x173a3b48cf76d2, (-36));
(0x1487c69d7eb57d, (-36));
(0x11068dd8cd1cf9, (-36));
(0x1a744f218f640b, (-37));
(0x13368ba6fbc38e, (-37));
(0x1a03bdfb0f673e, (-38));
(0x105af1a9856c91, (-38));
(0x1300ca100370ac, (-39));
(0x14451bccd0782f, (-40));
(0x13ad330032fff0, (-41));
(0x112cd3f45e33d0, (-42));
(0x1a8073ebb058e0, (-44));
(0x119b58598f7c9e, (-45));
(0x13498c97b10540, (-47));
(0x10000000000000, (-49));
(0x10000000000000, (-52))];
[(0x10000000000000, (-52));
(0x16fa6ea162d0f0, (-50));
(0x16fa6ea162d0f0, (-48));
(0x127757ebaf9368, (-46));
(0x19492e7d33fb7e, (-45));
(0x1e72be2b01d76f, (-44));
(0x1071a46b7c148d, (-42));
(0x1025c9615b8c15, (-41));
(0x1d1c4a33929669, (-41));
(0x18423dd5a4d2ad, (-40));
(0x12ca6eb29e3b0f, (-39));
(0x1b2bdfafd79689, (-39));
(0x126526184f48a2, (-38));
(0x1761394318308a, (-38));
(0x1bf1b5e848f80e, (-38));
(0x1f733c518e829c, (-38));
(0x10adcffe87f50e, (-37));
(0x10adcffe87f50e, (-37));
(0x1f733c518e829c, (-38));
(0x1bf1b5e848f80e, (-38));
(0x1761394318308a, (-38));
(0x126526184f48a2, (-38));
(0x1b2bdfafd79689, (-39));
(0x12ca6eb29e3b0f, (-39));
(0x18423dd5a4d2ad, (-40));
(0x1d1c4a33929669, (-41));
(0x1025c9615b8c15, (-41));
(0x1071a46b7c148d, (-42));
(0x1e72be2b01d76f, (-44));
(0x19492e7d33fb7e, (-45));
(0x127757ebaf9368, (-46));
(0x16fa6ea162d0f0, (-48));
(0x16fa6ea162d0f0, (-50));
(0x10000000000000, (-52))]];
   [[(0x10000000000000, (-52))];
[(0x13200000000000, (-45));
(0x117e2bca46bab9, (-48));
(0x10000000000000, (-52))];
[(0x1e480000000000, (-41));
(0x1bc9b91b7fdc44, (-43));
(0x130ff94904b159, (-45));
(0x116f8334644df8, (-48));
(0x10000000000000, (-52))];
[(0x12ed0000000000, (-37));
(0x1a396dce5d8e8c, (-39));
(0x1e14d4c48a788c, (-41));
(0x1b83a2ab361a0b, (-43));
(0x12dfe4dfb64199, (-45));
(0x11520cd1372fea, (-48));
(0x10000000000000, (-52))];
[(0x18d71000000000, (-35));
(0x172de38f130c8f, (-36));
(0x12bc4e27ee298b, (-37));
(0x19ca165fa95ce4, (-39));
(0x1d7c53067658fb, (-41));
(0x1af824c86e2ef1, (-43));
(0x128fc1f0145f0d, (-45));
(0x11257c5187fd08, (-48));
(0x10000000000000, (-52))];
[(0x13bbec00000000, (-33));
(0x1756872eb628b2, (-34));
(0x187ff2ac2b653e, (-35));
(0x16a1c6ff19dc55, (-36));
(0x122c2493563d0d, (-37));
(0x18eeaff727f49f, (-39));
(0x1c817aa0d796fc, (-41));
(0x1a28a04297f240, (-43));
(0x121f8f0063bbce, (-45));
(0x10e95a539f492b, (-48));
(0x10000000000000, (-52))];
[(0x14a18e00000000, (-32));
(0x1dcde4c2f9a8ef, (-33));
(0x1362d0d3d67f06, (-33));
(0x169cbeee5d9e52, (-34));
(0x177fd7542e81f0, (-35));
(0x159083b1a10981, (-36));
(0x1142371b95ef9e, (-37));
(0x17adbdc8103298, (-39));
(0x1b294b4f995abf, (-41));
(0x19172d93592312, (-43));
(0x118f49c777acb0, (-45));
(0x109cfdcd8ed008, (-48));
(0x10000000000000, (-52))];
[(0x1ded2800000000, (-32));
(0x19c9297a041ad8, (-32));
(0x142d765eeb89ed, (-32));
(0x1ca2908d42b862, (-33));
(0x125ecca1824ac3, (-33));
(0x1536532e8e358a, (-34));
(0x15e61be129e44e, (-35));
(0x1407adbb7238c8, (-36));
(0x1007d17afee003, (-37));
(0x1610e205a1680a, (-39));
(0x197ac4a3c6f19b, (-41));
(0x17c6a624996012, (-43));
(0x10deeee64d0ad6, (-45));
(0x103f81f636b80b, (-48));
(0x10000000000000, (-52))];
[(0x1f2c5f00000000, (-32));
(0x1f8b91584abcb5, (-32));
(0x1d1f40a812e0ed, (-32));
(0x188a8c6fb8645c, (-32));
(0x12dd6efa7d5124, (-32));
(0x1a67cc7c1c84fc, (-33));
(0x10c50c7e55a0fe, (-33));
(0x133c76f71bd900, (-34));
(0x13cb3b7d437958, (-35));
(0x121aca51fc1788, (-36));
(0x1d130e870500ee, (-38));
(0x1424b37371891d, (-39));
(0x177ee5ee7e69d0, (-41));
(0x163ab1b456dbc1, (-43));
(0x100e7973ed99c0, (-45));
(0x1f9f6e4990f227, (-49));
(0x10000000000000, (-52))];
[(0x17d6a300000000, (-32));
(0x1c0cf402986810, (-32));
(0x1e28c6ec3c98ad, (-32));
(0x1db2e54a0c4c85, (-32));
(0x1ad09bac7c13f1, (-32));
(0x1632c76d212faa, (-32));
(0x10d48b110a1de3, (-32));
(0x175217b624d46d, (-33));
(0x1d6cfb849b0859, (-34));
(0x10d251c86a865a, (-34));
(0x114f2a8a3d13f8, (-35));
(0x1fc4a2482bd47f, (-37));
(0x19ad879c743ffc, (-38));
(0x11f8833154454b, (-39));
(0x1540ae1b54dde0, (-41));
(0x1477d8ea5ba961, (-43));
(0x1e3bc476d73e46, (-46));
(0x1e98180e9b47f1, (-49));
(0x10000000000000, (-52))];
[(0x1b19bc00000000, (-33));
(0x127087c3bcf643, (-32));
(0x16e73944d79df6, (-32));
(0x1a12cf9616efca, (-32));
(0x1b47b4a24d2d49, (-32));
(0x1a45ea33c2e3d0, (-32));
(0x174dacdc842961, (-32));
(0x1306f414659691, (-32));
(0x1c8fd71f5476d9, (-33));
(0x13a85a882898e7, (-33));
(0x18b8f8a17f5391, (-34));
(0x1c441066159091, (-35));
(0x1d2e4d1f376270, (-36));
(0x1af4c4c9fe67f0, (-37));
(0x1602743cf5edb3, (-38));
(0x1f3c225224b93e, (-40));
(0x12cd1b6b3465a5, (-41));
(0x12839ec7ea15af, (-43));
(0x1c1a3cd9862dfb, (-46));
(0x1d64d51e0db1c5, (-49));
(0x10000000000000, (-52))];
[(0x16fe9000000000, (-34));
(0x12112800000000, (-33));
(0x19d0be12088bf8, (-33));
(0x10e04525408f57, (-32));
(0x14478502f5652b, (-32));
(0x1677497699e90f, (-32));
(0x16fd2ced4a8756, (-32));
(0x15bff6abae8d05, (-32));
(0x1306f414659691, (-32));
(0x1ec24a21bd6c4c, (-33));
(0x16ef144984b263, (-33));
(0x1f770de4d098e7, (-34));
(0x13c93eaddbe532, (-34));
(0x16b23bfbd5be57, (-35));
(0x17962c30be9af2, (-36));
(0x1602743cf5edb3, (-37));
(0x1238695a956c0e, (-38));
(0x1a5259961627e7, (-40));
(0x10332aeeecd2f9, (-41));
(0x1064a37ee39ad2, (-43));
(0x19b83a7a4bfb8d, (-46));
(0x1c000000000000, (-49));
(0x10000000000000, (-52))];
[(0x1cfe3000000000, (-36));
(0x1a60185117f9aa, (-35));
(0x15aa5d1e0a8d14, (-34));
(0x1037346c4c582a, (-33));
(0x1642d3e18521df, (-33));
(0x1c288299cbb5da, (-33));
(0x1076b46a858778, (-32));
(0x11d6847712ec12, (-32));
(0x11ee67bd13e44a, (-32));
(0x10bb7c64d5ed06, (-32));
(0x1cfb3719b36550, (-33));
(0x17454be600c2dd, (-33));
(0x114b3a46b94628, (-33));
(0x17ba1b30c98f78, (-34));
(0x1df039b66be995, (-35));
(0x1148f14f9890b9, (-35));
(0x122538db6a4afe, (-36));
(0x112ad806ced7a5, (-37));
(0x1cef141025d60f, (-39));
(0x155e7d6b9b9b35, (-40));
(0x1b07aee824fe06, (-42));
(0x1c45a9581d9e0f, (-44));
(0x1715869f5ef063, (-46));
(0x1a61be6cfec996, (-49));
(0x10000000000000, (-52))];
[(0x1ac34000000000, (-38));
(0x1c683a96936c16, (-37));
(0x1aeb53fda6333f, (-36));
(0x1712da4720be36, (-35));
(0x120df843b37591, (-34));
(0x19f73f60ce1c13, (-34));
(0x113e4afd106049, (-33));
(0x15399e753ad4a4, (-33));
(0x18463e3dc6b1e8, (-33));
(0x19d634c8e0ea3a, (-33));
(0x199db8c4f7d86a, (-33));
(0x17a9c38d332ca2, (-33));
(0x145b8c7da67328, (-33));
(0x104af11a3d123e, (-33));
(0x18375bd35fef0d, (-34));
(0x10aab0f7442497, (-34));
(0x152b6cfffc0228, (-35));
(0x18b158bad9f351, (-36));
(0x1a4833fd979c0c, (-37));
(0x194fd7ffe064f0, (-38));
(0x15cf4b9f320e87, (-39));
(0x108d6c5ba9502f, (-40));
(0x15a42e3569015d, (-42));
(0x178f627418ae62, (-44));
(0x1431c21a5e4c54, (-46));
(0x187eb1990b697a, (-49));
(0x10000000000000, (-52))];
[(0x118f0000000000, (-40));
(0x161347e45c960f, (-39));
(0x18553d4f391bde, (-38));
(0x17fb16283e27ed, (-37));
(0x156953c880a3a6, (-36));
(0x117b7c27c0a82a, (-35));
(0x1a49259d748cfb, (-35));
(0x1249798e1a96b9, (-34));
(0x17a29f3cab0649, (-34));
(0x1c7417ca98d8eb, (-34));
(0x1ff7a1a68c0bc1, (-34));
(0x10c782ff178aa2, (-33));
(0x107806753ebbda, (-33));
(0x1e39c7b947254f, (-34));
(0x19eb177d66fbae, (-34));
(0x14be3dc56d0f91, (-34));
(0x1eeea4d4d0b5a1, (-35));
(0x156e32892b8a70, (-35));
(0x1b7f2756aa8173, (-36));
(0x104256bce9a086, (-36));
(0x119dc7c774575e, (-37));
(0x1158ecbb6b2eda, (-38));
(0x1eb85323c28929, (-40));
(0x181948ae86d02d, (-41));
(0x1065aa802a7ff3, (-42));
(0x12bd5524c2db5f, (-44));
(0x110c37d838d335, (-46));
(0x1645640568c1c3, (-49));
(0x10000000000000, (-52))];
[(0x1f000000000000, (-44));
(0x17babc0c430e2e, (-42));
(0x1ee62537e6fed1, (-41));
(0x11a906504a11a5, (-39));
(0x1212f682e51c22, (-38));
(0x10c877306707d6, (-37));
(0x1c8c6fb600da33, (-37));
(0x1665358ccfa614, (-36));
(0x1049e65c01eb98, (-35));
(0x160e1232072f5d, (-35));
(0x1be0eca3a557cb, (-35));
(0x107c26dfab56cc, (-34));
(0x12445c5f2b746e, (-34));
(0x12fbd1151b5b9c, (-34));
(0x1282673e0552af, (-34));
(0x10ee0616e9feab, (-34));
(0x1d08ca1b035487, (-35));
(0x1750322be2b85c, (-35));
(0x117f761fe0de03, (-35));
(0x187df09cc40bee, (-36));
(0x1fdc7c28bcf69f, (-37));
(0x132da0848bd024, (-37));
(0x153efff271cf20, (-38));
(0x157fe17cf04d84, (-39));
(0x13ad330032fff0, (-40));
(0x1010db1f048ac8, (-41));
(0x16f3822c4fa1b1, (-43));
(0x1bd6bd06c2f234, (-45));
(0x1b46bfc05aeb89, (-47));
(0x13988e1409212e, (-49));
(0x10000000000000, (-52))];
[(0x10800000000000, (-47));
(0x103f81f636b80b, (-45));
(0x19b42eff5d83ba, (-44));
(0x114fe26cf49a31, (-42));
(0x147eff31e9717c, (-41));
(0x15c0d5513f41e8, (-40));
(0x14f9f24533dafb, (-39));
(0x128debe2351f48, (-38));
(0x1e52cd4b0e0758, (-38));
(0x17038d6bdaf9c5, (-37));
(0x1049e65c01eb98, (-36));
(0x1591f7690b8c76, (-36));
(0x1ac8ef656aab5d, (-36));
(0x1f3e177114f917, (-36));
(0x1122d0b7cb605a, (-35));
(0x11b0d1ede02977, (-35));
(0x113138d27ad477, (-35));
(0x1f733c518e829c, (-36));
(0x1b0e8cec4e9822, (-36));
(0x15deaa025b7b29, (-36));
(0x1094c4f5a38ea7, (-36));
(0x1787f6a123df0d, (-37));
(0x1f29331f51962f, (-38));
(0x132da0848bd024, (-38));
(0x15d537a6adf0cf, (-39));
(0x16d60ea0416193, (-40));
(0x15c0d5513f41e8, (-41));
(0x12a5492111a634, (-42));
(0x1c453caec66791, (-44));
(0x127757ebaf9368, (-45));
(0x13e655eefe1367, (-47));
(0x103f81f636b80b, (-49));
(0x10000000000000, (-52))];
[(0x10000000000000, (-52));
(0x1752e50db3a3a1, (-50));
(0x17af78e6da9b30, (-48));
(0x1356cdebc9b5e2, (-46));
(0x1aeb3a614ef06b, (-45));
(0x107bff83c2d813, (-43));
(0x121eccc2a0c3f0, (-42));
(0x121eccc2a0c3f0, (-41));
(0x10a5027e497898, (-40));
(0x1c4a52ed7f3d67, (-40));
(0x165d8f4eeb44a8, (-39));
(0x10849b2cdd62b2, (-38));
(0x16de3d79294df3, (-38));
(0x1dbfb4db0ecff4, (-38));
(0x1237a612742bb3, (-37));
(0x15091e20b7cb88, (-37));
(0x16ec4bc34e709f, (-37));
(0x17966d3d2ae1f5, (-37));
(0x16ec4bc34e709f, (-37));
(0x15091e20b7cb88, (-37));
(0x1237a612742bb3, (-37));
(0x1dbfb4db0ecff4, (-38));
(0x16de3d79294df3, (-38));
(0x10849b2cdd62b2, (-38));
(0x165d8f4eeb44a8, (-39));
(0x1c4a52ed7f3d67, (-40));
(0x10a5027e497898, (-40));
(0x121eccc2a0c3f0, (-41));
(0x121eccc2a0c3f0, (-42));
(0x107bff83c2d813, (-43));
(0x1aeb3a614ef06b, (-45));
(0x1356cdebc9b5e2, (-46));
(0x17af78e6da9b30, (-48));
(0x1752e50db3a3a1, (-50));
(0x10000000000000, (-52))]];
   [[(0x12000000000000, (-48));
(0x10000000000000, (-52))];
[(0x1e480000000000, (-43));
(0x1437fe6ad4cf4d, (-45));
(0x11f8e226127f60, (-48));
(0x10000000000000, (-52))];
[(0x1e480000000000, (-39));
(0x10ed7feefc8b43, (-40));
(0x1e23ea802b4b1a, (-43));
(0x1417f1aac78766, (-45));
(0x11e3779b97f4a7, (-48));
(0x10000000000000, (-52))];
[(0x1c638000000000, (-36));
(0x1664ae6a52127e, (-37));
(0x1e0b32f5add610, (-39));
(0x10b77f64f242a4, (-40));
(0x1db7feec595a07, (-43));
(0x13d7d7af35c95b, (-45));
(0x11bf8c9d2ed1a1, (-48));
(0x10000000000000, (-52))];
[(0x1e5c3000000000, (-34));
(0x1f2381b7ca62c2, (-35));
(0x1c124bdc8b7436, (-36));
(0x15f82a9ef9402b, (-37));
(0x1d567ce4d9a484, (-39));
(0x104c7e46400610, (-40));
(0x1d053d51dd31a0, (-43));
(0x1377af75482435, (-45));
(0x118cc821d6d3e2, (-48));
(0x10000000000000, (-52))];
[(0x14a18e00000000, (-32));
(0x1a3faf2c27d3af, (-33));
(0x1de9ca7a39e35a, (-34));
(0x1e566ae1597990, (-35));
(0x1b227eb7a38ac9, (-36));
(0x15232fbd8dcfaf, (-37));
(0x1c2eea52126a3f, (-39));
(0x1f5cf8f82f6bd6, (-41));
(0x1c0d54d38b01b5, (-43));
(0x12f77758c0ae96, (-45));
(0x114aa7606f8bb0, (-48));
(0x10000000000000, (-52))];
[(0x130b4800000000, (-31));
(0x1d2d3f0b8438b2, (-32));
(0x143f7df241ed4a, (-32));
(0x1961d9dfe35e11, (-33));
(0x1c9a3fa6eabff0, (-34));
(0x1cc7dedd9b350b, (-35));
(0x199f593b120791, (-36));
(0x13edb72df1941b, (-37));
(0x1a9ccf21fb0a36, (-39));
(0x1dc0f3bfdd36a0, (-41));
(0x1ad2aa88bb6f4b, (-43));
(0x12572ce6c20009, (-45));
(0x10f876ccdf6cd9, (-48));
(0x10000000000000, (-52))];
[(0x18f04c00000000, (-31));
(0x168ed055847f9a, (-31));
(0x129bfa742b9d0d, (-31));
(0x1bfb351e8fc8e7, (-32));
(0x1321f08552b20a, (-32));
(0x17b749afedff9b, (-33));
(0x1a83e7fa31c2ed, (-34));
(0x1a8e67d7c02502, (-35));
(0x179b06f8aacb90, (-36));
(0x12636704b12c09, (-37));
(0x18aba4a0d188b4, (-39));
(0x1bccec6a036365, (-41));
(0x195863bed6b464, (-43));
(0x1196cc93bf113c, (-45));
(0x1095479c7e6580, (-48));
(0x10000000000000, (-52))];
[(0x17d6a300000000, (-31));
(0x1921fb1a327f3a, (-31));
(0x183fbd020bb67a, (-31));
(0x156eead587dc92, (-31));
(0x115a6ec5adf9f1, (-31));
(0x19b56893091150, (-32));
(0x1161d824daeffb, (-32));
(0x156095bc4c6d64, (-33));
(0x17ca0e2e10cabc, (-34));
(0x17ca0e2e10cabc, (-35));
(0x152dc185728daa, (-36));
(0x109331f8584ca9, (-37));
(0x1669d8df4c3993, (-39));
(0x198ae239f3bca9, (-41));
(0x17a2745bf8d150, (-43));
(0x10b65142d93de8, (-45));
(0x101fe03f61bad0, (-48));
(0x10000000000000, (-52))];
[(0x10f01580000000, (-31));
(0x14a509d673551c, (-31));
(0x170bc14ae38116, (-31));
(0x17a01103c00412, (-31));
(0x16462bf7893963, (-31));
(0x13527a0251c615, (-31));
(0x1ed3d8b7141f74, (-32));
(0x1694846f7b96f1, (-32));
(0x1e4b60b84568ff, (-33));
(0x128aba791f7ead, (-33));
(0x149a248694c5a3, (-34));
(0x14a24cf9268ed8, (-35));
(0x1274a223a3a09f, (-36));
(0x1d1dae9e3993cd, (-38));
(0x13e88e3242d17b, (-39));
(0x1706d407a71e8e, (-41));
(0x15b5b28681d5d1, (-43));
(0x1f6b66fada552d, (-46));
(0x1f2d4a4563563f, (-49));
(0x10000000000000, (-52))];
[(0x12112800000000, (-32));
(0x1959a8012cb51b, (-32));
(0x10431dcecf772c, (-31));
(0x1329865ffa9bad, (-31));
(0x14cca835e9b7ba, (-31));
(0x14d5e4ac94c230, (-31));
(0x134778e13e32ed, (-31));
(0x107a5e921330df, (-31));
(0x19fefd45563743, (-32));
(0x12e453e95a476e, (-32));
(0x193a69533307ca, (-33));
(0x1ed59d2ccc97be, (-34));
(0x11281fd2120d9e, (-34));
(0x11437d652114d9, (-35));
(0x1f2052436e46de, (-37));
(0x18d4857e08c6be, (-38));
(0x113b49184ac8c7, (-39));
(0x144ebff626c74c, (-41));
(0x1397f14d255b89, (-43));
(0x1d29d0336ad4b0, (-46));
(0x1deeea11683f49, (-49));
(0x10000000000000, (-52))];
[(0x1cfe3000000000, (-34));
(0x1766c1ede0310a, (-33));
(0x1133047f9fe254, (-32));
(0x172b8723aed6e1, (-32));
(0x1cbd27a5c5f5cf, (-32));
(0x1076b46a858778, (-31));
(0x11765e953a9186, (-31));
(0x112afa78886495, (-31));
(0x1f4dab194f277b, (-32));
(0x1a74c931256205, (-32));
(0x14b48b1b8cc70e, (-32));
(0x1df42ee6fbbac6, (-33));
(0x13f81f44a7d1d9, (-33));
(0x1871d059972499, (-34));
(0x1b5472d75bfbd8, (-35));
(0x1bb7b1a7734374, (-36));
(0x194508f5593b9f, (-37));
(0x147598688aeaf0, (-38));
(0x1cef141025d60f, (-40));
(0x1172a2e5c1a538, (-41));
(0x115024f787344a, (-43));
(0x1aa7bb926a0be1, (-46));
(0x1c7ee08a0e6d4c, (-49));
(0x10000000000000, (-52))];
[(0x11655000000000, (-35));
(0x10352102bb659c, (-34));
(0x1b4d151206bd8c, (-34));
(0x14fa3e5c7f8c76, (-33));
(0x1d9b07404c651f, (-33));
(0x1347545bc4b2cf, (-32));
(0x17403b3ab27e06, (-32));
(0x1a080888d9e521, (-32));
(0x1b1909b8c94ca8, (-32));
(0x1a3faa4a5212c5, (-32));
(0x17a9c38d332ca2, (-32));
(0x13d796e4dc0983, (-32));
(0x1ee9ce3f9cf6c5, (-33));
(0x165386bc2a4072, (-33));
(0x1dd07d48074149, (-34));
(0x12555c43315b72, (-34));
(0x14a8d1696ed490, (-35));
(0x1530736439511d, (-36));
(0x139b43f03d0347, (-37));
(0x102caec4a8b0b6, (-38));
(0x17689f1834a7bd, (-40));
(0x1d08ee9fdad6f6, (-42));
(0x1dcd2a43770dc7, (-44));
(0x17e4f0bed1d2f7, (-46));
(0x1ad5336963eefb, (-49));
(0x10000000000000, (-52))];
[(0x1eba4000000000, (-38));
(0x10a8de65283cb4, (-36));
(0x10247fc563b421, (-35));
(0x1c531d4a63086f, (-35));
(0x16b5d356183e29, (-34));
(0x10c101a618a128, (-33));
(0x16dbd7f1a13c67, (-33));
(0x1cf277e1a96e2a, (-33));
(0x110ea90a6139ac, (-32));
(0x12be1449067162, (-32));
(0x1339207b795003, (-32));
(0x1269a8d50940c3, (-32));
(0x107806753ebbda, (-32));
(0x1b7d93db2b4d2b, (-33));
(0x1561abe35a915b, (-33));
(0x1eeea4d4d0b5a1, (-34));
(0x14bffce039fb4f, (-34));
(0x19b8867be3e3b8, (-35));
(0x1d4fc3555524cf, (-36));
(0x1e832b33f578a8, (-37));
(0x1cc470c6d1b836, (-38));
(0x18494b6cc94197, (-39));
(0x1212f682e51c22, (-40));
(0x1730656e3a4dc4, (-42));
(0x18ca46457aff11, (-44));
(0x14e10dc51235a7, (-46));
(0x18e6593d77b0b7, (-49));
(0x10000000000000, (-52))];
[(0x13600000000000, (-40));
(0x18d4e3d49b40af, (-39));
(0x1bec5e1e098fa4, (-38));
(0x1c18e7fc422f69, (-37));
(0x19a2f5a74a7b66, (-36));
(0x156953c880a3a6, (-35));
(0x107b8717bf223a, (-34));
(0x1782bb63afcc11, (-34));
(0x1f30c012faed1e, (-34));
(0x134c4febc64971, (-33));
(0x16521cd4838ecd, (-33));
(0x182a3e6fe2fb63, (-33));
(0x1881ff15422a73, (-33));
(0x174a5c2c8a9ad9, (-33));
(0x14bc12cab8c958, (-33));
(0x114764fe44a7c9, (-33));
(0x1aeb7aa73290a2, (-34));
(0x139030abeab618, (-34));
(0x1a744f218f640b, (-35));
(0x1094c4f5a38ea7, (-35));
(0x132da0848bd024, (-36));
(0x14577222a3a5c5, (-37));
(0x13a05531d34f15, (-38));
(0x110a57ad6c97f7, (-39));
(0x1a3c440043ffeb, (-41));
(0x11877e65423e7e, (-42));
(0x13af5d7338516b, (-44));
(0x119b58598f7c9e, (-46));
(0x16a09e667f3bcc, (-49));
(0x10000000000000, (-52))];
[(0x10800000000000, (-43));
(0x19b42eff5d83ba, (-42));
(0x110a162f2118b2, (-40));
(0x13d8620316034d, (-39));
(0x14b55f0f9d90a3, (-38));
(0x139f1ff7be68af, (-37));
(0x110b14d83a21ec, (-36));
(0x1b554b8b76f674, (-36));
(0x14577222a3a5c5, (-35));
(0x1c367a779fc1ae, (-35));
(0x1249798e1a96b9, (-34));
(0x1635786389b753, (-34));
(0x194f31d7632213, (-34));
(0x1b1829fd1ad039, (-34));
(0x1b436162a800b5, (-34));
(0x19c9d53bb83eb3, (-34));
(0x16ec4bc34e709f, (-34));
(0x1321cf919555d4, (-34));
(0x1df2495b1da2c6, (-35));
(0x15ef4d5444d944, (-35));
(0x1dff13a45cea4e, (-36));
(0x13150467c2b389, (-36));
(0x167d0c49177548, (-37));
(0x1868ef5cc46086, (-38));
(0x1838ae12095220, (-39));
(0x15c0d5513f41e8, (-40));
(0x1170fff8a9409c, (-41));
(0x187ba191d4c439, (-43));
(0x1d329616320abe, (-45));
(0x1c247a85fe81fa, (-47));
(0x13e655eefe1367, (-49));
(0x10000000000000, (-52))];
[(0x11000000000000, (-47));
(0x1101ffe1e56c6f, (-45));
(0x1b597ea47fdda2, (-44));
(0x12bc177c6b6833, (-42));
(0x1692786b34cc32, (-41));
(0x18652ce82f89e1, (-40));
(0x17f88e2dbf70f8, (-39));
(0x159f36ca08013a, (-38));
(0x12081808cf97fa, (-37));
(0x1bf4f322a615d2, (-37));
(0x143af6b501795a, (-36));
(0x1b6afcc25309de, (-36));
(0x11711a8c6432a5, (-35));
(0x14dee17d40f2d5, (-35));
(0x1784be9e93a6c0, (-35));
(0x18fad3c6da41b2, (-35));
(0x1904b7fdcbef96, (-35));
(0x17a0e6a895f07f, (-35));
(0x15091e20b7cb88, (-35));
(0x11a38ef6eebd10, (-35));
(0x1bd3d751abee72, (-36));
(0x149cf0d4766a66, (-36));
(0x1c9c2923d1156d, (-37));
(0x128b6225ec0493, (-37));
(0x165d8f4eeb44a8, (-38));
(0x18f783bd6e34e5, (-39));
(0x19a040ef71c891, (-40));
(0x17f88e2dbf70f8, (-41));
(0x14306bc8fb3450, (-42));
(0x1e18a08ef11043, (-44));
(0x1356cdebc9b5e2, (-45));
(0x14831efb5fe63a, (-47));
(0x107e0f66afed06, (-49));
(0x10000000000000, (-52))];
[(0x10000000000000, (-52));
(0x17aa10d193c22c, (-50));
(0x186482dd565021, (-48));
(0x1439acd6e3ed0b, (-46));
(0x1c9a56a2f99a7a, (-45));
(0x11ce1e70e6fcf8, (-43));
(0x13e821c1ff8209, (-42));
(0x144255fd1d77f5, (-41));
(0x12f35f7d074820, (-40));
(0x1069698a0a09e9, (-39));
(0x1a7692dee3c03f, (-39));
(0x13f286ee4608a5, (-38));
(0x1c35b847ac34f8, (-38));
(0x12c2e486e0884a, (-37));
(0x1784be9e93a6c0, (-37));
(0x1bd3d751abee72, (-37));
(0x1f1cb24bcb52b8, (-37));
(0x10721785682fba, (-36));
(0x10721785682fba, (-36));
(0x1f1cb24bcb52b8, (-37));
(0x1bd3d751abee72, (-37));
(0x1784be9e93a6c0, (-37));
(0x12c2e486e0884a, (-37));
(0x1c35b847ac34f8, (-38));
(0x13f286ee4608a5, (-38));
(0x1a7692dee3c03f, (-39));
(0x1069698a0a09e9, (-39));
(0x12f35f7d074820, (-40));
(0x144255fd1d77f5, (-41));
(0x13e821c1ff8209, (-42));
(0x11ce1e70e6fcf8, (-43));
(0x1c9a56a2f99a7a, (-45));
(0x1439acd6e3ed0b, (-46));
(0x186482dd565021, (-48));
(0x17aa10d193c22c, (-50));
(0x10000000000000, (-52))]];
   [[(0x10000000000000, (-52))];
[(0x15600000000000, (-45));
(0x127e451bb944c3, (-48));
(0x10000000000000, (-52))];
[(0x12ed0000000000, (-40));
(0x106c1cbde46981, (-42));
(0x154ff9fe7ec745, (-45));
(0x12706821902e9a, (-48));
(0x10000000000000, (-52))];
[(0x1a7f0000000000, (-37));
(0x1158840ea43c21, (-38));
(0x12d06a69fcb4b3, (-40));
(0x1047122766db0f, (-42));
(0x151fe7c35a9dfa, (-45));
(0x12548eb9151e85, (-48));
(0x10000000000000, (-52))];
[(0x13846800000000, (-34));
(0x1130b0960e77be, (-35));
(0x1a422a29269685, (-37));
(0x1116ba0f017802, (-38));
(0x127b29a34961f3, (-40));
(0x1ffa9f8c5c92bb, (-43));
(0x14cfc8a5c43b10, (-45));
(0x122a788fc76de5, (-48));
(0x10000000000000, (-52))];
[(0x11750200000000, (-32));
(0x1374f61c70d16d, (-33));
(0x134778e13e32ed, (-34));
(0x10d408871f5ac3, (-35));
(0x198dce334ecfb8, (-37));
(0x1094e248a014c5, (-38));
(0x11eebd9d44c7a9, (-40));
(0x1f1ef8c94666db, (-43));
(0x145f9b7b1ae4b6, (-45));
(0x11f1c1799ca8fe, (-48));
(0x10000000000000, (-52))];
[(0x14a18e00000000, (-31));
(0x1c08383dc7944b, (-32));
(0x112f10e385def9, (-32));
(0x12eb36550cf36d, (-33));
(0x1293f0a3f47bbc, (-34));
(0x101ed53d5ff296, (-35));
(0x18684cc97192a4, (-37));
(0x1facdd6223d3ad, (-39));
(0x112da63d401ddf, (-40));
(0x1dfd2a8866f4c9, (-43));
(0x13cf5e79cb40e4, (-45));
(0x11a9dc8f6df103, (-48));
(0x10000000000000, (-52))];
[(0x1100ee00000000, (-30));
(0x1b7cdcc34ebb15, (-31));
(0x143afd8f0f4666, (-31));
(0x1b0ebb863e968c, (-32));
(0x10625846e3495f, (-32));
(0x11e067c852b7f6, (-33));
(0x11736d7ffac738, (-34));
(0x1e3244335cdf8c, (-36));
(0x16dc11af2194af, (-37));
(0x1dc0f3bfdd36a0, (-39));
(0x103b63587562d8, (-40));
(0x1c97e4058acaf3, (-43));
(0x131f0f09210cf6, (-45));
(0x11520cd1372fea, (-48));
(0x10000000000000, (-52))];
[(0x14433dc0000000, (-30));
(0x132ba5e65ec600, (-30));
(0x109a25db88091b, (-30));
(0x1a514863c53f89, (-31));
(0x1310e7363c1807, (-31));
(0x19306fe1cdb493, (-32));
(0x1e3b675efc6f3d, (-33));
(0x106547f0f0d385, (-33));
(0x1feaaaad19d857, (-35));
(0x1b9d1ad929d00a, (-36));
(0x14f743b98cfb82, (-37));
(0x1b73661ce9af63, (-39));
(0x1e38e959eeb655, (-41));
(0x1af2945e4d64f0, (-43));
(0x124ea973ec0d7d, (-45));
(0x10e95a539f492b, (-48));
(0x10000000000000, (-52))];
[(0x11e0fa40000000, (-30));
(0x1395d3e3462d76, (-30));
(0x13b00e2dcaae0f, (-30));
(0x122fcdc188c8db, (-30));
(0x1ee37d4da1ff29, (-31));
(0x181957198dbfa8, (-31));
(0x113ef16aa9d0e6, (-31));
(0x1694846f7b96f1, (-32));
(0x1af0d623df7af9, (-33));
(0x1d22c39c718dd2, (-34));
(0x1c5bd3efddc4d1, (-35));
(0x189b82da2f80d4, (-36));
(0x12cb54c37f347f, (-37));
(0x18d4857e08c6be, (-39));
(0x1bacb3ab09d16b, (-41));
(0x191179e445dcdc, (-43));
(0x115e286b9b1174, (-45));
(0x106e825da8fc2b, (-48));
(0x10000000000000, (-52))];
[(0x17b68480000000, (-31));
(0x1de0221d2d2cee, (-31));
(0x1145c7c7c23e14, (-30));
(0x1262605c0ac975, (-30));
(0x120b497cf31be3, (-30));
(0x1058400825427b, (-30));
(0x1b535fd183e9af, (-31));
(0x150f2854094049, (-31));
(0x1ddee7d87c82d9, (-32));
(0x13708a4c6e574f, (-32));
(0x172035e19971cf, (-33));
(0x190290fe0738f0, (-34));
(0x186a1a3a0e95bf, (-35));
(0x154f8963df3dfe, (-36));
(0x106c7199230ef6, (-37));
(0x15f74ec867d4be, (-39));
(0x18df2468462c05, (-41));
(0x16f9b6cb0e610a, (-43));
(0x104d843988c2c6, (-45));
(0x1fbfbf7ebc755e, (-49));
(0x10000000000000, (-52))];
[(0x17d0cc00000000, (-32));
(0x1133047f9fe254, (-31));
(0x16c0a50ed23a76, (-31));
(0x1bb18825f34842, (-31));
(0x1f1d0b15aa9edc, (-31));
(0x102ac205f9eb7e, (-30));
(0x1f1e932c11c5f6, (-31));
(0x1bbf5b97ce99c5, (-31));
(0x16e9679715cde0, (-31));
(0x117fc6dc36b72e, (-31));
(0x18acb340ae9f1e, (-32));
(0x1002d0fb74c4c1, (-32));
(0x130c0c9db832f7, (-33));
(0x14a8d1696ed490, (-34));
(0x1449842515af28, (-35));
(0x11de4c6b44d852, (-36));
(0x1be1a3aa306285, (-38));
(0x12f11230023fd8, (-39));
(0x15df399615c282, (-41));
(0x14b16d0091eb1d, (-43));
(0x1e3962b701e02a, (-46));
(0x1e768d399dc46f, (-49));
(0x10000000000000, (-52))];
[(0x121ede00000000, (-33));
(0x1e02b1a6e9008c, (-33));
(0x16a886aaafc6c1, (-32));
(0x1f66c6031c8604, (-32));
(0x1410da94e532b7, (-31));
(0x17baf87f9fffe1, (-31));
(0x1a080888d9e521, (-31));
(0x1a86fa8cf367d0, (-31));
(0x192196f0f510f3, (-31));
(0x162284eca5cc00, (-31));
(0x121d0270101f52, (-31));
(0x1b815c356e604e, (-32));
(0x1355ca7d9eb014, (-32));
(0x1917b26f9f147d, (-33));
(0x1df039b66be995, (-34));
(0x10552d81f7d3d1, (-34));
(0x102efe211c9feb, (-35));
(0x1cdc289a03df53, (-37));
(0x16dfcf42f1d928, (-38));
(0x1fb20c3dd45e3a, (-40));
(0x12bdefe2f2905a, (-41));
(0x123fe3f1e36c14, (-43));
(0x1b973c00c28ed2, (-46));
(0x1cfb95bb9dcc0c, (-49));
(0x10000000000000, (-52))];
[(0x14bdb800000000, (-35));
(0x13c541d05e66a4, (-34));
(0x110dbfbe9d0085, (-33));
(0x1adf02da016965, (-33));
(0x1377600a27b8f1, (-32));
(0x1a1020d0bfd486, (-32));
(0x102e93e4b885bd, (-31));
(0x12af6fcc43a1dc, (-31));
(0x14195de3a94322, (-31));
(0x1429524883855c, (-31));
(0x12de104d88f4da, (-31));
(0x107806753ebbda, (-31));
(0x1acb61d290ca76, (-32));
(0x1448c7da213633, (-32));
(0x1c84a1010be1f6, (-33));
(0x128f2fb2e3a02d, (-33));
(0x16465dbfaa68ab, (-34));
(0x1886193bc26954, (-35));
(0x189990ca517769, (-36));
(0x1648789a8d13b6, (-37));
(0x1202de7d769067, (-38));
(0x198f838422e3f2, (-40));
(0x1f1c82e3898446, (-42));
(0x1f5b790b3d041c, (-44));
(0x18b45a59b5207d, (-46));
(0x1b46bfc05aeb89, (-49));
(0x10000000000000, (-52))];
[(0x118f0000000000, (-37));
(0x136f0da6f5cd37, (-36));
(0x133ca56ea9e887, (-35));
(0x1141d3ceb32300, (-34));
(0x1c531d4a63086f, (-34));
(0x156953c880a3a6, (-33));
(0x1df8687072dc40, (-33));
(0x137e780bdcd432, (-32));
(0x17a29f3cab0649, (-32));
(0x1ac2faf88a882f, (-32));
(0x1c5603932db924, (-32));
(0x1c13c410515690, (-32));
(0x1a0a1f06964d1a, (-32));
(0x169856c181cd3e, (-32));
(0x1253b7e7723372, (-32));
(0x1bbf92f69f67d8, (-33));
(0x139030abeab618, (-33));
(0x199d42959f895b, (-34));
(0x1f053c80c8f5cc, (-35));
(0x11497a5dc40549, (-35));
(0x119dc7c774575e, (-36));
(0x1045f4e882eb04, (-37));
(0x1af1781701b71b, (-39));
(0x13ad330032fff0, (-40));
(0x18ca46457aff11, (-42));
(0x1a0a740d6dfc3a, (-44));
(0x1590590a698c4b, (-46));
(0x194c583ada5b52, (-49));
(0x10000000000000, (-52))];
[(0x15500000000000, (-40));
(0x1bd341f76da902, (-39));
(0x1fe592b074ab75, (-38));
(0x105f1a1ed3a525, (-36));
(0x1e80c3d41a04fe, (-36));
(0x1a08b78aeaf342, (-35));
(0x147ff8a89938d7, (-34));
(0x1df12719733ee5, (-34));
(0x145c5ff302667f, (-33));
(0x19dc9aeda7c6df, (-33));
(0x1ebf2d5adee7ba, (-33));
(0x11226f7fbe2921, (-32));
(0x11ebd75ce6af6e, (-32));
(0x11992bb1ea24b3, (-32));
(0x10398fe86f76eb, (-32));
(0x1c132a5581676c, (-33));
(0x16c58f971136a0, (-33));
(0x114a21f229676c, (-33));
(0x1886193bc26954, (-34));
(0x10332ce87bef08, (-34));
(0x13dc7cb38b37df, (-35));
(0x167d0c49177548, (-36));
(0x175ee6577d30a3, (-37));
(0x161c6ba4845db5, (-38));
(0x12d6c046eace19, (-39));
(0x1c7b5074f84995, (-41));
(0x12b2fb7b2878c3, (-42));
(0x14a554a4fbc4ea, (-44));
(0x122a788fc76de5, (-46));
(0x16fa6ea162d0f0, (-49));
(0x10000000000000, (-52))];
[(0x11880000000000, (-43));
(0x1bc60d2d922728, (-42));
(0x12bc177c6b6833, (-40));
(0x16377715092017, (-39));
(0x179edd76fd6736, (-38));
(0x16d1d3a187914d, (-37));
(0x1439b7f6998751, (-36));
(0x10902729e6f31a, (-35));
(0x19332ff45f7c7b, (-35));
(0x11e199b662ad64, (-34));
(0x17be9f107e3de0, (-34));
(0x1d92f3a1885a1c, (-34));
(0x114e152ea18e12, (-33));
(0x130d5c4ebabf01, (-33));
(0x13bf8e0a0a406c, (-33));
(0x13472acec4cc65, (-33));
(0x11b8acfe70745f, (-33));
(0x1eaa172df2ac6b, (-34));
(0x18f1f6c9505160, (-34));
(0x130d5c4ebabf01, (-34));
(0x1b44bc878a3534, (-35));
(0x123c413a1d6f36, (-35));
(0x16b6555db067b5, (-36));
(0x1a39d060d4fe4e, (-37));
(0x1be9ee3a035e90, (-38));
(0x1b2e3323f125e9, (-39));
(0x17f88e2dbf70f8, (-40));
(0x12e29d7cda1ff9, (-41));
(0x1a10672232199d, (-43));
(0x1e93e8b71a52b4, (-45));
(0x1d0234e1ae90d3, (-47));
(0x1432f24fb01c7a, (-49));
(0x10000000000000, (-52))];
[(0x11800000000000, (-47));
(0x11c76e38277ad8, (-45));
(0x1d0bdeac9c9938, (-44));
(0x1439acd6e3ed0b, (-42));
(0x18c8a20cc7be84, (-41));
(0x1b422a7b940da4, (-40));
(0x1b4651818a76bd, (-39));
(0x1911c363ac33e1, (-38));
(0x1551cb6ca83124, (-37));
(0x10ddf5dfbc74df, (-36));
(0x18ef28a9d78ace, (-36));
(0x114661d5ee0f04, (-35));
(0x167e774df27314, (-35));
(0x1b93f2e7b1780d, (-35));
(0x1fe162a04b4c7a, (-35));
(0x116466930b7507, (-34));
(0x11ebd75ce6af6e, (-34));
(0x11717a0dfdc86c, (-34));
(0x1008e91d3a312d, (-34));
(0x1bd3d751abee72, (-35));
(0x16c58f971136a0, (-35));
(0x118cb1d94263ab, (-35));
(0x196d91ff1212c9, (-36));
(0x114661d5ee0f04, (-36));
(0x15f12e0619d64f, (-37));
(0x19f3041d21eee1, (-38));
(0x1c6d0f3b8aec31, (-39));
(0x1ca69628c4cd93, (-40));
(0x1a558c7d12ee3b, (-41));
(0x15ce8862dcd7b6, (-42));
(0x1ffa9f8c5c92bb, (-44));
(0x1439acd6e3ed0b, (-45));
(0x151fe7c35a9dfa, (-47));
(0x10bbb307acafda, (-49));
(0x10000000000000, (-52))];
[(0x10000000000000, (-52));
(0x18000000000000, (-50));
(0x19198c8b8307c8, (-48));
(0x151fe7c35a9dfa, (-46));
(0x1e56834255e391, (-45));
(0x132ff954378b3d, (-43));
(0x15ce8862dcd7b6, (-42));
(0x1692786b34cc32, (-41));
(0x157cf09e939a2e, (-40));
(0x12f35f7d074820, (-39));
(0x1f239e895beb75, (-39));
(0x17efd51deda3f9, (-38));
(0x114661d5ee0f04, (-37));
(0x1778d588fcfda6, (-37));
(0x1e15c32b4d3d26, (-37));
(0x1237a612742bb3, (-36));
(0x14dee17d40f2d5, (-36));
(0x16a32afc15eb12, (-36));
(0x1741f812a7b5e6, (-36));
(0x16a32afc15eb12, (-36));
(0x14dee17d40f2d5, (-36));
(0x1237a612742bb3, (-36));
(0x1e15c32b4d3d26, (-37));
(0x1778d588fcfda6, (-37));
(0x114661d5ee0f04, (-37));
(0x17efd51deda3f9, (-38));
(0x1f239e895beb75, (-39));
(0x12f35f7d074820, (-39));
(0x157cf09e939a2e, (-40));
(0x1692786b34cc32, (-41));
(0x15ce8862dcd7b6, (-42));
(0x132ff954378b3d, (-43));
(0x1e56834255e391, (-45));
(0x151fe7c35a9dfa, (-46));
(0x19198c8b8307c8, (-48));
(0x18000000000000, (-50));
(0x10000000000000, (-52))]];
   [[(0x13000000000000, (-48));
(0x10000000000000, (-52))];
[(0x11d00000000000, (-42));
(0x1687fe946a7955, (-45));
(0x12f9422c23c47d, (-48));
(0x10000000000000, (-52))];
[(0x13df4000000000, (-38));
(0x1508ea9b695b08, (-40));
(0x11bcf5d3004b6e, (-42));
(0x1667f32579a2a7, (-45));
(0x12e4fa41f10c9a, (-48));
(0x10000000000000, (-52))];
[(0x14d18000000000, (-35));
(0x1f11c5c42e1a3e, (-37));
(0x13bb7fd775243f, (-38));
(0x14ccbf75270b34, (-40));
(0x1183ff8b1367c0, (-42));
(0x1627dbe4718fff, (-45));
(0x12c2fc595456a6, (-48));
(0x10000000000000, (-52))];
[(0x18f04c00000000, (-33));
(0x182af11a828bf2, (-34));
(0x149c3de05739b0, (-35));
(0x1e8af3fb6834ef, (-37));
(0x135123de87c692, (-38));
(0x145569202321dd, (-40));
(0x11259672318504, (-42));
(0x15c7b802793cb2, (-45));
(0x1292fd2c6a6262, (-48));
(0x10000000000000, (-52))];
[(0x130b4800000000, (-31));
(0x16db4e034b1491, (-32));
(0x189c7920420046, (-33));
(0x179cb1ba4ad1ae, (-34));
(0x13feb4d149f451, (-35));
(0x1d81d3884ebc57, (-37));
(0x12a2d671094e88, (-38));
(0x13a4e78a3faca9, (-40));
(0x10a2868b85a403, (-42));
(0x1547863283db0f, (-45));
(0x12548eb9151e85, (-48));
(0x10000000000000, (-52))];
[(0x13d66b00000000, (-30));
(0x1c9c32d46c6e8c, (-31));
(0x12bad03f74a5d3, (-31));
(0x162f2b74ada1fa, (-32));
(0x17a603ea503048, (-33));
(0x16876ca5cb1467, (-34));
(0x12ff84f0717994, (-35));
(0x1bff4aa5b4b32c, (-37));
(0x11b4fe436e35c3, (-38));
(0x12be3a954058fe, (-40));
(0x1ff7e2f8b1019f, (-43));
(0x14a74489a6c65d, (-45));
(0x12071b0abcd838, (-48));
(0x10000000000000, (-52))];
[(0x1d791400000000, (-30));
(0x190756c972321e, (-30));
(0x136fd026a3f933, (-30));
(0x1b91c63a2a966a, (-31));
(0x11cfbbca7d6781, (-31));
(0x14e2c2f40361d6, (-32));
(0x161b9cd19722f9, (-33));
(0x14f92e0f5668e6, (-34));
(0x11a96a27dcfa05, (-35));
(0x1a1062a64100cf, (-37));
(0x108dae5405d9d4, (-38));
(0x11a562125170d9, (-40));
(0x1e66a5b9ade046, (-43));
(0x13e6f04c5945b3, (-45));
(0x11a9dc8f6df103, (-48));
(0x10000000000000, (-52))];
[(0x101747a0000000, (-29));
(0x1fbed859a567cc, (-30));
(0x1cc178d98e2900, (-30));
(0x17ed1d70ca5c36, (-30));
(0x12462244698aef, (-30));
(0x19946b347bb87d, (-31));
(0x105c61f9cec8e9, (-31));
(0x130cccc2c91bce, (-32));
(0x14149930f55a48, (-33));
(0x13060a6446c151, (-34));
(0x100ac760a95ac8, (-35));
(0x17c5e7ec6f4eba, (-37));
(0x1e691df7104fd6, (-39));
(0x105f5dba6a9f25, (-40));
(0x1c950c70167c02, (-43));
(0x1306859e133251, (-45));
(0x113bd2f90a1cb4, (-48));
(0x10000000000000, (-52))];
[(0x1a590500000000, (-30));
(0x1deabf907e80cc, (-30));
(0x1f3f4d3cbfb3cd, (-30));
(0x1e12cfd03fd925, (-30));
(0x1ab0da12376660, (-30));
(0x15d7707e0e28b1, (-30));
(0x107676328d3957, (-30));
(0x16d06bb05f5af9, (-31));
(0x1cfa9691d6bd12, (-32));
(0x10cceee5f74bc6, (-32));
(0x11af4c5062a09b, (-33));
(0x10c6f8db2b7aef, (-34));
(0x1c6a0c8529a7fe, (-36));
(0x1533e9dd3e353f, (-37));
(0x1b657f3a9a34bd, (-39));
(0x1de45a42a55aa3, (-41));
(0x1a879e4d17a66c, (-43));
(0x1205ff005531d7, (-45));
(0x10bbb307acafda, (-48));
(0x10000000000000, (-52))];
[(0x105f8c40000000, (-30));
(0x154874ce2433b7, (-30));
(0x1970269b8f97f5, (-30));
(0x1c0b97cf4acedb, (-30));
(0x1c945c04d0a86a, (-30));
(0x1af34198be45c3, (-30));
(0x17862a20a96943, (-30));
(0x12ff562c7a8706, (-30));
(0x1c5a116560b1c9, (-31));
(0x1381ca3c9060be, (-31));
(0x18acb340ae9f1e, (-32));
(0x1c9212ec944c73, (-33));
(0x1e1db5fab1fca8, (-34));
(0x1cb0bdb45f95ad, (-35));
(0x18779dbf3abc2b, (-36));
(0x12711ac9f82595, (-37));
(0x18256081219109, (-39));
(0x1ac99f3dce3c9c, (-41));
(0x1843c84847dc9f, (-43));
(0x10e5547dd7c8f7, (-45));
(0x1027ce7b7ea376, (-48));
(0x10000000000000, (-52))];
[(0x1f105800000000, (-32));
(0x170f32bc9d2e86, (-31));
(0x1f66c6031c8604, (-31));
(0x13b44a52ee6a76, (-30));
(0x16ddfcfd677cd0, (-30));
(0x1898eb6c582fa8, (-30));
(0x188f397eb85227, (-30));
(0x16c6ef8e2bac4b, (-30));
(0x139ed51c099786, (-30));
(0x1f5f893d111c6b, (-31));
(0x173f0918183439, (-31));
(0x1fdad32ca40851, (-32));
(0x141e6a6d09489f, (-32));
(0x1753ea95eef839, (-33));
(0x18b158bad9f351, (-34));
(0x17b0b86603a7e5, (-35));
(0x146837905db673, (-36));
(0x1f2c1f9425e639, (-38));
(0x14bfe424f06310, (-39));
(0x177e884b6ad6e2, (-41));
(0x15cffa21bd3185, (-43));
(0x1f48f47a1826ff, (-46));
(0x1efbdeb14f4ed9, (-49));
(0x10000000000000, (-52))];
[(0x16783200000000, (-33));
(0x13110e470065c1, (-32));
(0x1d89b2f73cb1d5, (-32));
(0x1506a90d984ead, (-31));
(0x1ba4dc520f09e9, (-31));
(0x10d7bb4909d683, (-30));
(0x1312131c33d29e, (-30));
(0x14195de3a94322, (-30));
(0x13bca65c92599b, (-30));
(0x12106f1439f2d3, (-30));
(0x1ecf7601db0085, (-31));
(0x1875bb03ee9104, (-31));
(0x120c4f7aa55969, (-31));
(0x18b287b54e0e90, (-32));
(0x1f3d7033bb0676, (-33));
(0x122ff6671294c8, (-33));
(0x136345d07d999f, (-34));
(0x12c9d85ccf457c, (-35));
(0x10666086e0fa46, (-36));
(0x1978c0ed20439c, (-38));
(0x114dfad043a4be, (-39));
(0x141511e6c5ad7b, (-41));
(0x1333cd972cdc08, (-43));
(0x1c86bbd609a25f, (-46));
(0x1d763b20d435ef, (-49));
(0x10000000000000, (-52))];
[(0x18950000000000, (-35));
(0x17f32295dd9739, (-34));
(0x1522b61f744b66, (-33));
(0x110dbfbe9d0085, (-32));
(0x19559809c3b066, (-32));
(0x1169442867eb64, (-31));
(0x163a0291a4f823, (-31));
(0x1a6ccd12faa311, (-31));
(0x1d50df7a7e3fd1, (-31));
(0x1e631036cb6581, (-31));
(0x1d7297aa9ee478, (-31));
(0x1aaebdd76258f9, (-31));
(0x169856c181cd3e, (-31));
(0x11dcebe1b5dc4e, (-31));
(0x1a530ac5e39581, (-32));
(0x120952b9e79d19, (-32));
(0x16e8fde1e1c8d3, (-33));
(0x1add4ff9f840b6, (-34));
(0x1ced3db6cc2abb, (-35));
(0x1c67cd6860e334, (-36));
(0x1935df50c152bf, (-37));
(0x13fb4ccc393561, (-38));
(0x1bd3aceaac5d52, (-40));
(0x10a135d9c60824, (-41));
(0x10783c3bce15a8, (-43));
(0x1983c37ca9aa04, (-46));
(0x1bb67ae8584caa, (-49));
(0x10000000000000, (-52))];
[(0x13fb0000000000, (-37));
(0x168dee9a715ac6, (-36));
(0x16c9c462f41d0d, (-35));
(0x14e24bbf769ed2, (-34));
(0x1186532cfbd414, (-33));
(0x1b1e69db5f680f, (-33));
(0x1372a9a97c85f3, (-32));
(0x19f4800d8a4bec, (-32));
(0x1029e0d488dc4b, (-31));
(0x12d41788fd819f, (-31));
(0x148b26c646e38e, (-31));
(0x1503b882583ecb, (-31));
(0x1429524883855c, (-31));
(0x1223d2da8e25f0, (-31));
(0x1e9808296395e2, (-32));
(0x18272edd4e9ec0, (-32));
(0x11d25a61f2f3de, (-32));
(0x1886193bc26954, (-33));
(0x1f5ef87dfcff6c, (-34));
(0x12941a294b3d18, (-34));
(0x1445553af88b8d, (-35));
(0x143d57db61e98d, (-36));
(0x12555f6aa7e4ce, (-37));
(0x1dc970628cd5e9, (-39));
(0x155c7c57ba372f, (-40));
(0x1a71d0bb6450b4, (-42));
(0x1b4fd5d22dee1c, (-44));
(0x163fa3f3c02961, (-46));
(0x19b0c25315c2cd, (-49));
(0x10000000000000, (-52))];
[(0x17600000000000, (-40));
(0x1f116b1b4048f6, (-39));
(0x1223cbbd8e5bbe, (-37));
(0x12fb7ce9297f6e, (-36));
(0x120a5e97cf8dd8, (-35));
(0x1f711736bc2d64, (-35));
(0x194cf0cf9aaf4f, (-34));
(0x12e663f7479d5c, (-33));
(0x1a520b9f900328, (-33));
(0x1122ddf973e62a, (-32));
(0x14e978a5825455, (-32));
(0x17f52bfd8d654b, (-32));
(0x19cbfa3974bb65, (-32));
(0x1a1fded41af0d4, (-32));
(0x18e34602e0fcec, (-32));
(0x164c866fbd8d4b, (-32));
(0x12c72dd75c4116, (-32));
(0x1db0d146cd878f, (-33));
(0x15ffe410ee4411, (-33));
(0x1e7cb35b2cdd78, (-34));
(0x13b24a9ddc77b4, (-34));
(0x17a3c00902a21d, (-35));
(0x1a39d060d4fe4e, (-36));
(0x1ab9b527ecd001, (-37));
(0x18cff03391379c, (-38));
(0x14c269b0e7f24e, (-39));
(0x1ed6e4bf01279e, (-41));
(0x13e821c1ff8209, (-42));
(0x159f2ae5b3ae7b, (-44));
(0x12b998819b3569, (-46));
(0x1752e50db3a3a1, (-49));
(0x10000000000000, (-52))];
[(0x12980000000000, (-43));
(0x1df0b81bb7b7ee, (-42));
(0x1489f437af7fc3, (-40));
(0x18c8a20cc7be84, (-39));
(0x1ad44446a1845f, (-38));
(0x1a6899c7b7e3b7, (-37));
(0x17dd87515927e5, (-36));
(0x13f14ca5290215, (-35));
(0x1efc9990c3bcef, (-35));
(0x1679b39dbdbe0a, (-34));
(0x1e89bdb5bf84e6, (-34));
(0x137afa55c9afd5, (-33));
(0x17615ce3544d89, (-33));
(0x1a6f102bc5a302, (-33));
(0x1c2db6acdbb935, (-33));
(0x1c5603932db924, (-33));
(0x1ae1c30b5a0726, (-33));
(0x180d5dabd749c3, (-33));
(0x144858ca5c032c, (-33));
(0x101a1f3e3469d5, (-33));
(0x1807e027caf147, (-34));
(0x10d1ad10d06040, (-34));
(0x16057407ef1fd0, (-35));
(0x1adf9cb46b18ca, (-36));
(0x1e6da07708c245, (-37));
(0x1fc7fff6f0243e, (-38));
(0x1e6380fbac33ef, (-39));
(0x1a558c7d12ee3b, (-40));
(0x1465fb321983c1, (-41));
(0x1bb1d2dd8df3ff, (-43));
(0x1ffa9f8c5c92bb, (-45));
(0x1ddfeedca22e34, (-47));
(0x147e7054af0989, (-49));
(0x10000000000000, (-52))];
[(0x12000000000000, (-47));
(0x128fc1f0145f0d, (-45));
(0x1ecb4f1757a8cd, (-44));
(0x15c8e7017572ea, (-42));
(0x1b229485bf1483, (-41));
(0x1e5a8e864dbc0d, (-40));
(0x1ee87f170d5523, (-39));
(0x1cedddf4b8e11b, (-38));
(0x1911c363ac33e1, (-37));
(0x1439b7f6998751, (-36));
(0x1e837bfee27cf1, (-36));
(0x1597fa4b6992c5, (-35));
(0x1cbf49ed0d5ff5, (-35));
(0x12090b5a8f23c1, (-34));
(0x155c9ce48fa6f8, (-34));
(0x17e909f838795b, (-34));
(0x194f31d7632213, (-34));
(0x19582ff51ae961, (-34));
(0x1802b42b92c226, (-34));
(0x158350c3e1102a, (-34));
(0x1237a612742bb3, (-34));
(0x1d21330920faf6, (-35));
(0x15f4bfe8ae41c9, (-35));
(0x1f24901623d29f, (-36));
(0x14badbcd841205, (-36));
(0x19d1b7b0497d6a, (-37));
(0x1df6b1b92f4d36, (-38));
(0x101db476eeb3a2, (-38));
(0x1febfdbe970a0c, (-40));
(0x1cd8ff2694fa21, (-41));
(0x177fea366dbae0, (-42));
(0x10f59cd3976cd2, (-43));
(0x151fe7c35a9dfa, (-45));
(0x15bcb04cb65909, (-47));
(0x10f876ccdf6cd9, (-49));
(0x10000000000000, (-52))];
[(0x10000000000000, (-52));
(0x1854bfb363dc39, (-50));
(0x19ce95f75281f5, (-48));
(0x16097255e24e75, (-46));
(0x100fe01fc07ee2, (-44));
(0x14a1ccb8b2ffcb, (-43));
(0x17d2e59e7aa636, (-42));
(0x19114fc42454a4, (-41));
(0x184589048bcec4, (-40));
(0x15c8d18bac22a2, (-39));
(0x1239e6b1797590, (-38));
(0x1c8e0fecee761a, (-38));
(0x15040f6385e189, (-37));
(0x1d24cd0e5706dc, (-37));
(0x13143da2852ab3, (-36));
(0x17a00cb9e43102, (-36));
(0x1bb3f7881de4bd, (-36));
(0x1eca47d185222d, (-36));
(0x103a539cc53cc4, (-35));
(0x103a539cc53cc4, (-35));
(0x1eca47d185222d, (-36));
(0x1bb3f7881de4bd, (-36));
(0x17a00cb9e43102, (-36));
(0x13143da2852ab3, (-36));
(0x1d24cd0e5706dc, (-37));
(0x15040f6385e189, (-37));
(0x1c8e0fecee761a, (-38));
(0x1239e6b1797590, (-38));
(0x15c8d18bac22a2, (-39));
(0x184589048bcec4, (-40));
(0x19114fc42454a4, (-41));
(0x17d2e59e7aa636, (-42));
(0x14a1ccb8b2ffcb, (-43));
(0x100fe01fc07ee2, (-44));
(0x16097255e24e75, (-46));
(0x19ce95f75281f5, (-48));
(0x1854bfb363dc39, (-50));
(0x10000000000000, (-52))]];
   [[(0x10000000000000, (-52))];
[(0x17c00000000000, (-45));
(0x137e5bd40f95a1, (-48));
(0x10000000000000, (-52))];
[(0x17610000000000, (-40));
(0x133d5ce90841a6, (-42));
(0x17affa98a6e5ed, (-45));
(0x137135779c8dca, (-48));
(0x10000000000000, (-52))];
[(0x12375000000000, (-36));
(0x169b3835df89dc, (-38));
(0x17413fc5dc9643, (-40));
(0x131652e2b08467, (-42));
(0x177fea366dbae0, (-45));
(0x1356cdebc9b5e2, (-48));
(0x10000000000000, (-52))];
[(0x1ded2800000000, (-34));
(0x18f5d89526d379, (-35));
(0x1211c1484a7201, (-36));
(0x164e27ec7e0783, (-38));
(0x16e27f13af7dbc, (-40));
(0x12c88d68d5eb61, (-42));
(0x172fce51371b98, (-45));
(0x132eee75770416, (-48));
(0x10000000000000, (-52))];
[(0x1ded2800000000, (-32));
(0x1f8b91584abcb5, (-33));
(0x1d996cdd562150, (-34));
(0x187d1bfbda9ce4, (-35));
(0x11a2464f87c7ff, (-36));
(0x15b5db90f7ffc2, (-38));
(0x16463dddb8fca0, (-40));
(0x1254aaa7902d94, (-42));
(0x16bfa5f9ad8756, (-45));
(0x12f9422c23c47d, (-48));
(0x10000000000000, (-52))];
[(0x13d66b00000000, (-30));
(0x1972de5d139e89, (-31));
(0x1d82007ec425b4, (-32));
(0x1ec39768528058, (-33));
(0x1ca244bbb1b1a0, (-34));
(0x179074080d1626, (-35));
(0x10ec6aa05f39d0, (-36));
(0x14d5f56ad2fb55, (-38));
(0x156efc0ebde645, (-40));
(0x11bb9a7f6de137, (-42));
(0x162f6fc47a860a, (-45));
(0x12b5524ae1278d, (-48));
(0x10000000000000, (-52))];
[(0x126bac80000000, (-29));
(0x1c0df7b2754a35, (-30));
(0x137e999f312174, (-30));
(0x18a8aa4ec241d2, (-31));
(0x1c478ca1bd2ca5, (-32));
(0x1d3ef6b4907501, (-33));
(0x1b1394db697ad8, (-34));
(0x1639527087cd0c, (-35));
(0x1febf840a77893, (-37));
(0x13b3d966c7b7eb, (-38));
(0x146039852e05cb, (-40));
(0x10fea1d3cb629a, (-42));
(0x157f29a87a44cd, (-45));
(0x126280b3476096, (-48));
(0x10000000000000, (-52))];
[(0x18de28e0000000, (-29));
(0x161acf00000000, (-29));
(0x1208faa9948b22, (-29));
(0x1afe0fc8ba2e53, (-30));
(0x127e7fbb11b15d, (-30));
(0x1723448454f5fb, (-31));
(0x1a52446f4ecfb4, (-32));
(0x1b1394db697ad8, (-33));
(0x19007cbe98c6ae, (-34));
(0x148568bbd95fcc, (-35));
(0x1d8dc61a2b93e1, (-37));
(0x12569a2b0fd204, (-38));
(0x131e760e44ceed, (-40));
(0x101f5f3e5bb39a, (-42));
(0x14aed0c9b04ca8, (-45));
(0x12000000000000, (-48));
(0x10000000000000, (-52))];
[(0x1907c4c0000000, (-29));
(0x19ac18d3ff178a, (-29));
(0x183efb011b963b, (-29));
(0x1519d7fb94e9e1, (-29));
(0x10eb1c40235fb3, (-29));
(0x18f78c32293d6d, (-30));
(0x10eb5f33f006e5, (-30));
(0x14ff471de02595, (-31));
(0x17c2702486dc7d, (-32));
(0x18607324700bc7, (-33));
(0x16824f4b06800b, (-34));
(0x12861986c997da, (-35));
(0x1ad1d3f00cb94b, (-37));
(0x10c6df4aadc050, (-38));
(0x11af315de2ca3e, (-40));
(0x1e3fa2e82aefd1, (-43));
(0x13be612611ae5f, (-45));
(0x118cc821d6d3e2, (-48));
(0x10000000000000, (-52))];
[(0x131a23a0000000, (-29));
(0x166f2d5bcf8470, (-29));
(0x1849b5be264e00, (-29));
(0x1849b5be264e00, (-29));
(0x167561549e8f78, (-29));
(0x133513a771a620, (-29));
(0x1e5e94bd8f9064, (-30));
(0x1629e489399d87, (-30));
(0x1dcc23e48ce854, (-31));
(0x126430bada84d4, (-31));
(0x14c18d301fc07e, (-32));
(0x154b96bd68cfb2, (-33));
(0x13b730c56ab4ab, (-34));
(0x104fbe7f7c7d72, (-35));
(0x17ceeb7dc2aa31, (-37));
(0x1e1d8816f9627a, (-39));
(0x1018eb00c10b5b, (-40));
(0x1c04bf98ece95a, (-43));
(0x12add5109df0e7, (-45));
(0x110785dd689a28, (-48));
(0x10000000000000, (-52))];
[(0x1653bf40000000, (-30));
(0x1de4af3278963b, (-30));
(0x126e8065085488, (-29));
(0x15013b475389a1, (-29));
(0x162bf775f49f80, (-29));
(0x15b52c8689f9af, (-29));
(0x13b9bd0e3fe235, (-29));
(0x10a2503ae0f765, (-29));
(0x1a0365de51b029, (-30));
(0x12d4e3c79e3602, (-30));
(0x192ef484c4e33e, (-31));
(0x1f0152de65ce5a, (-32));
(0x117eeff0733a2b, (-32));
(0x11ff6ef96118e2, (-33));
(0x10c067a4908acd, (-34));
(0x1bf18dc61ea36e, (-36));
(0x149e5aff372f99, (-37));
(0x1a735bf4f0c323, (-39));
(0x1cc64488c085bf, (-41));
(0x1993cb24395a70, (-43));
(0x117d24568a05b7, (-45));
(0x106e825da8fc2b, (-48));
(0x10000000000000, (-52))];
[(0x140fe380000000, (-31));
(0x1e931a275b7305, (-31));
(0x1565efa34991b3, (-30));
(0x1ba4dc520f09e9, (-30));
(0x108a094f06d51a, (-29));
(0x12607c1eeb25ac, (-29));
(0x12fdea223f1f70, (-29));
(0x1245d8440b50ec, (-29));
(0x105f3fc88884c9, (-29));
(0x1b4f7ca4ec218f, (-30));
(0x152ed15569b06a, (-30));
(0x1e81c006444bd1, (-31));
(0x14583662e74d79, (-31));
(0x190c37431fd275, (-32));
(0x1c57cb2422d24c, (-33));
(0x1d4fc3555524cf, (-34));
(0x1b80e4728b1f82, (-35));
(0x173166dac2671a, (-36));
(0x115b2507474cd6, (-37));
(0x16a8347aa4803a, (-39));
(0x192cac167de3cf, (-41));
(0x16f3822c4fa1b1, (-43));
(0x102c42c7cf2938, (-45));
(0x1f7efbeb8d4f11, (-49));
(0x10000000000000, (-52))];
[(0x1ba7a000000000, (-33));
(0x18055afee30f95, (-32));
(0x13110e470065c1, (-31));
(0x1bd93cff128e26, (-31));
(0x12ce65d583661b, (-30));
(0x17932ac1e367c4, (-30));
(0x1b810737894e65, (-30));
(0x1deba0ff22ff43, (-30));
(0x1e631036cb6581, (-30));
(0x1cd3de11f3d66f, (-30));
(0x198befe89b4332, (-30));
(0x1522c0eae1c84c, (-30));
(0x104e7cad49b603, (-30));
(0x176c1b4c9d9a8d, (-31));
(0x1f3d7033bb0676, (-32));
(0x134820468f1989, (-32));
(0x15ef4d5444d944, (-33));
(0x16de5b6afebf96, (-34));
(0x15b1ee4919200c, (-35));
(0x128debe2351f48, (-36));
(0x1c42206a603526, (-38));
(0x12d6c046eace19, (-39));
(0x157808f175c0c4, (-41));
(0x142bd002f3235f, (-43));
(0x1d763b20d435ef, (-46));
(0x1deeea11683f49, (-49));
(0x10000000000000, (-52))];
[(0x1cf8c000000000, (-35));
(0x1cd33253fe6361, (-34));
(0x1a0015af4208c0, (-33));
(0x15769a79aa7b51, (-32));
(0x1053e2edc2c074, (-31));
(0x1702d54c8f123b, (-31));
(0x1e28362af92215, (-31));
(0x126de836b4b146, (-30));
(0x150d06cffd66bb, (-30));
(0x16811c9d8fde0a, (-30));
(0x16891b971ab579, (-30));
(0x15253d549f0b36, (-30));
(0x129680d38dd846, (-30));
(0x1e9808296395e2, (-31));
(0x178a9f12445185, (-31));
(0x10e83a67b708b9, (-31));
(0x169c1ef25bb1bc, (-32));
(0x1c0f1e589b840f, (-33));
(0x1016e7c32b165c, (-33));
(0x10f5b519fd1e0f, (-34));
(0x1051551a11b3ce, (-35));
(0x1c66f116d5be7e, (-37));
(0x16172d4aa63ed4, (-38));
(0x1e359b4e30aaf9, (-40));
(0x11bd548817a1f8, (-41));
(0x1146065e3e81fa, (-43));
(0x1a532c32c23dd4, (-46));
(0x1c247a85fe81fa, (-49));
(0x10000000000000, (-52))];
[(0x16a50000000000, (-37));
(0x1a0d24e1267ff6, (-36));
(0x1ad85a8ec05c1c, (-35));
(0x191c7f8f94a25e, (-34));
(0x1586d5ee29abd6, (-33));
(0x1107ec92fb4341, (-32));
(0x190096c84b4b19, (-32));
(0x11187d267b9843, (-31));
(0x15d82e22f3428f, (-31));
(0x1a23d6cee2e96a, (-31));
(0x1d57921ce73467, (-31));
(0x1eede40b2d5e3c, (-31));
(0x1ea239243a9e89, (-31));
(0x1c8335f3be468d, (-31));
(0x18ee533c0bb3fe, (-31));
(0x1476807f1c75cb, (-31));
(0x1f7de266cb6a18, (-32));
(0x16ad38620a9aeb, (-32));
(0x1e7cb35b2cdd78, (-33));
(0x13122d7f4d8e17, (-33));
(0x161ce4d6b5a958, (-34));
(0x17a3c00902a21d, (-35));
(0x172517b611aab2, (-36));
(0x1492bfbe4897ba, (-37));
(0x1069698a0a09e9, (-38));
(0x17212b8f40ddb7, (-40));
(0x1c2704d026cdc3, (-42));
(0x1c9a56a2f99a7a, (-44));
(0x16eeee8953be07, (-46));
(0x1a13a9cb996650, (-49));
(0x10000000000000, (-52))];
[(0x19910000000000, (-40));
(0x11493a4916eed6, (-38));
(0x148cb11877da09, (-37));
(0x15e7ea914e41e4, (-36));
(0x1539129af1ac09, (-35));
(0x12de01a6075928, (-34));
(0x1f0082ac2c9777, (-34));
(0x17aa9f8b907779, (-33));
(0x10db46b64e4e87, (-32));
(0x1679b39dbdbe0a, (-32));
(0x1c1e15216f0fda, (-32));
(0x10884a68588b70, (-31));
(0x124c4990d209ca, (-31));
(0x1313b5098d9764, (-31));
(0x12be1449067162, (-31));
(0x115a287fcbf406, (-31));
(0x1e43d94e88de64, (-32));
(0x18d74cd749b392, (-32));
(0x132a4e7cb7abc3, (-32));
(0x1bbf92f69f67d8, (-33));
(0x12cde46442183a, (-33));
(0x17c9253c121c9a, (-34));
(0x1bf886fefa47dd, (-35));
(0x1e6da07708c245, (-36));
(0x1e6da07708c245, (-37));
(0x1bbdaed27a73a9, (-38));
(0x16ce5a3debd669, (-39));
(0x10a7bad5a72618, (-40));
(0x1526f139e49eef, (-42));
(0x169cd11a1f3bc2, (-44));
(0x1348b834fd9bcf, (-46));
(0x17aa10d193c22c, (-49));
(0x10000000000000, (-52))];
[(0x13b00000000000, (-43));
(0x101a47ea814e8c, (-41));
(0x16748a14c9c9f2, (-40));
(0x1b8e4916eba398, (-39));
(0x1e5a8e864dbc0d, (-38));
(0x1e6be1e5e86dea, (-37));
(0x1c02b32ce41528, (-36));
(0x17dd87515927e5, (-35));
(0x12eb4ff0c70113, (-34));
(0x1c074e7a5370c2, (-34));
(0x1376da0dd663a3, (-33));
(0x1968c0f5765fc8, (-33));
(0x1f3cf494d4e7da, (-33));
(0x121c3dfbc5a23d, (-32));
(0x13d34c20d43a41, (-32));
(0x1480bf6235c377, (-32));
(0x14095cca83d04f, (-32));
(0x12805a761535b1, (-32));
(0x10227c92e8cc1f, (-32));
(0x1a8e60b9b83a20, (-33));
(0x14990946adf362, (-33));
(0x1e108746e4ecf4, (-34));
(0x14995aca06d440, (-34));
(0x1a6cf1a31ef2f9, (-35));
(0x1f9f37b7f51cc1, (-36));
(0x119157d7f9f387, (-36));
(0x1204ada85c0106, (-37));
(0x10edda50679925, (-38));
(0x1cd8ff2694fa21, (-40));
(0x15fb5f8371721b, (-41));
(0x1d5fe4c4092999, (-43));
(0x10b35315a61592, (-44));
(0x1ebda87f068e4d, (-47));
(0x14c8dc2e42397f, (-49));
(0x10000000000000, (-52))];
[(0x12800000000000, (-47));
(0x135af0797de177, (-45));
(0x104be7f22f8974, (-43));
(0x176a097b40735c, (-42));
(0x1da16845370ad7, (-41));
(0x10d89246a96b6f, (-39));
(0x117242852df1fc, (-38));
(0x109e1de3bb3bf7, (-37));
(0x1d54059028ef2d, (-37));
(0x181c68338c5208, (-36));
(0x128c065192a84e, (-35));
(0x1aca42040cba38, (-35));
(0x12370028f66449, (-34));
(0x175df2e60d4628, (-34));
(0x1c535b5b84d0d8, (-34));
(0x103e08bfcce1b1, (-33));
(0x11a324b61553c2, (-33));
(0x1224ada86ec571, (-33));
(0x11af128d5107d2, (-33));
(0x105435e463b1b2, (-33));
(0x1c8e3b6ff1c490, (-34));
(0x17a00cb9e43102, (-34));
(0x12792551f271f1, (-34));
(0x1b42f0b70f7c84, (-35));
(0x12f18549522adb, (-35));
(0x18bab3176e35be, (-36));
(0x1e39858e6a41af, (-37));
(0x1138dcb71b1606, (-37));
(0x123426c368db13, (-38));
(0x11b9b97b726219, (-39));
(0x1f8415119d5209, (-41));
(0x1944db69fe2127, (-42));
(0x11f5376fc444a1, (-43));
(0x16097255e24e75, (-45));
(0x1659789c98f706, (-47));
(0x113463fa37014e, (-49));
(0x10000000000000, (-52))];
[(0x10000000000000, (-52));
(0x18a85c24f70659, (-50));
(0x1a839f261422cd, (-48));
(0x16f640b79bbc5f, (-46));
(0x10fb06cd4a13c8, (-44));
(0x1623d4475fc30c, (-43));
(0x19f61e6e18897e, (-42));
(0x1bc0fffb63565d, (-41));
(0x1b511a6999d57b, (-40));
(0x18efccf39afd18, (-39));
(0x153b9c3f21bfa4, (-38));
(0x10f01df48f8c37, (-37));
(0x19682ceed75253, (-37));
(0x11f725889d2ca2, (-36));
(0x1801de4122d906, (-36));
(0x1e5dfa0673b8d3, (-36));
(0x123455d5aa1796, (-35));
(0x14b5907e07defe, (-35));
(0x165e5813e64cb8, (-35));
(0x16f31ae39d74af, (-35));
(0x165e5813e64cb8, (-35));
(0x14b5907e07defe, (-35));
(0x123455d5aa1796, (-35));
(0x1e5dfa0673b8d3, (-36));
(0x1801de4122d906, (-36));
(0x11f725889d2ca2, (-36));
(0x19682ceed75253, (-37));
(0x10f01df48f8c37, (-37));
(0x153b9c3f21bfa4, (-38));
(0x18efccf39afd18, (-39));
(0x1b511a6999d57b, (-40));
(0x1bc0fffb63565d, (-41));
(0x19f61e6e18897e, (-42));
(0x1623d4475fc30c, (-43));
(0x10fb06cd4a13c8, (-44));
(0x16f640b79bbc5f, (-46));
(0x1a839f261422cd, (-48));
(0x18a85c24f70659, (-50));
(0x10000000000000, (-52))]];
   [[(0x14000000000000, (-48));
(0x10000000000000, (-52))];
[(0x14c80000000000, (-42));
(0x18f7feb7e8e5f5, (-45));
(0x13f9989320b7f7, (-48));
(0x10000000000000, (-52))];
[(0x19b78000000000, (-38));
(0x19d8aa9ce90033, (-40));
(0x14b3f656ef416d, (-42));
(0x18d7f468524e83, (-45));
(0x13e655eefe1367, (-48));
(0x10000000000000, (-52))];
[(0x1ded2800000000, (-35));
(0x15302db5667bb1, (-36));
(0x198dce334ecfb8, (-38));
(0x1995ff82ee6855, (-40));
(0x1477ff9bf1ed10, (-42));
(0x1897df7898d74f, (-45));
(0x13c6128271b922, (-48));
(0x10000000000000, (-52))];
[(0x13f37000000000, (-32));
(0x12537b1d1e42bb, (-33));
(0x1da844b695b0a9, (-35));
(0x14dd5c9ee740d4, (-36));
(0x1911a94816f949, (-38));
(0x1911a94816f949, (-40));
(0x14148f08919129, (-42));
(0x1837bf41656978, (-45));
(0x13988e1409212e, (-48));
(0x10000000000000, (-52))];
[(0x1100ee00000000, (-30));
(0x1351414de4f5a5, (-31));
(0x13b73ad72eb5f1, (-32));
(0x11f27d2a2562df, (-33));
(0x1cdc375763d13e, (-35));
(0x143a3a68ae55c8, (-36));
(0x1845dfb0d133bd, (-38));
(0x184da7ddcd51e3, (-40));
(0x138a6640ab5bff, (-42));
(0x17b792b72cb59d, (-45));
(0x135d6b2ed19148, (-48));
(0x10000000000000, (-52))];
[(0x13d66b00000000, (-29));
(0x1b08b794f2eacd, (-30));
(0x10c09c8e008e58, (-30));
(0x12cec01ac6f995, (-31));
(0x1305d90ee97d46, (-32));
(0x1134f1724723a9, (-33));
(0x1b90bc485f4dc7, (-35));
(0x134bb6ff75e9a5, (-36));
(0x172f14cfde80e4, (-38));
(0x174cfb2bfcecbc, (-40));
(0x12da97ceee8dd3, (-42));
(0x17175853886f05, (-45));
(0x13142b30a929ab, (-48));
(0x10000000000000, (-52))];
[(0x10941b40000000, (-28));
(0x1a8c02613fbce9, (-29));
(0x137ae84e717187, (-29));
(0x1a2797b62ddb9a, (-30));
(0x10043244de01b5, (-30));
(0x11d1d41b65255e, (-31));
(0x11e8cf68c5e71f, (-32));
(0x10237f2cb587c7, (-33));
(0x19d2651455a60c, (-35));
(0x12191244264d42, (-36));
(0x15d3b1bd1d936f, (-38));
(0x1613a30de9326d, (-40));
(0x12068acfa38ce8, (-42));
(0x16570df191bd32, (-45));
(0x12bc2891041ea7, (-48));
(0x10000000000000, (-52))];
[(0x147ab840000000, (-28));
(0x12fe3c19483517, (-28));
(0x10386e262b59ae, (-28));
(0x19816500000000, (-29));
(0x12707884891906, (-29));
(0x18772745342544, (-30));
(0x1db1ca6f9f9a47, (-31));
(0x106a0c4680c568, (-31));
(0x106f4f750da5b2, (-32));
(0x1d95289f7ef70e, (-34));
(0x17b21d450e963d, (-35));
(0x10abac08c56415, (-36));
(0x143bcf9112248a, (-38));
(0x14a69f4ced7bed, (-40));
(0x11100000000000, (-42));
(0x1576b096be4ee0, (-45));
(0x12548eb9151e85, (-48));
(0x10000000000000, (-52))];
[(0x131a23a0000000, (-28));
(0x14521bfed6a643, (-28));
(0x13f45eb6f5c2c0, (-28));
(0x121b4c6aca0058, (-28));
(0x1e5e94bd8f9064, (-29));
(0x17862a20a96943, (-29));
(0x10ce713283715c, (-29));
(0x16192e20a51aef, (-30));
(0x1aa6d0e67fdc96, (-31));
(0x1d5a7f22561362, (-32));
(0x1d5a7f22561362, (-33));
(0x1a738443150920, (-34));
(0x15448115cb2b3f, (-35));
(0x1e1d8816f9627a, (-37));
(0x12711ac9f82595, (-38));
(0x130bef97ceee8e, (-40));
(0x1ff231054cc578, (-43));
(0x14763c1cfaaec0, (-45));
(0x11dc4e63383328, (-48));
(0x10000000000000, (-52))];
[(0x1b49e9c0000000, (-29));
(0x108afc17f809ed, (-28));
(0x128645c14b94c4, (-28));
(0x1333880390a7b2, (-28));
(0x1272b0914223be, (-28));
(0x10701d8bdfe72c, (-28));
(0x1b29cbf1f3e4cc, (-29));
(0x14cae44999353f, (-29));
(0x1d71536611ccfa, (-30));
(0x133bf17e15ddb2, (-30));
(0x171c21bce75f64, (-31));
(0x196bbeb631b5bb, (-32));
(0x1973e51a56ae09, (-33));
(0x1705d9463090e2, (-34));
(0x12a1092ebf179e, (-35));
(0x1a9e53dd252c29, (-37));
(0x107eaf32928c7a, (-38));
(0x114a93741da7e3, (-40));
(0x1d88bd9ecea176, (-43));
(0x1355aaa9ee5b85, (-45));
(0x11520cd1372fea, (-48));
(0x10000000000000, (-52))];
[(0x1e17d540000000, (-30));
(0x14b7fd227d1c56, (-29));
(0x1a50f8798d6d4e, (-29));
(0x1ef1281e7a7832, (-29));
(0x10e1586362386d, (-28));
(0x111e7878265c34, (-28));
(0x1026ab725edf17, (-28));
(0x1c5b74dbf54138, (-29));
(0x17275247084fe2, (-29));
(0x11905ce7d17631, (-29));
(0x18b69ee3a5f87c, (-30));
(0x101574166fdf6f, (-30));
(0x134cf1b4863f53, (-31));
(0x1541d85b1a1db9, (-32));
(0x155d42993aaab6, (-33));
(0x1372a9a97c85f3, (-34));
(0x1fc21f4962e42e, (-36));
(0x16f5ba566e2b2e, (-37));
(0x1ce1d6f0ff8d9f, (-39));
(0x1ed5144988a68a, (-41));
(0x1ae9a4f7989424, (-43));
(0x1214f3ce35f4ec, (-45));
(0x10b40b040e9152, (-48));
(0x10000000000000, (-52))];
[(0x19adf000000000, (-31));
(0x140fe380000000, (-30));
(0x1cd37672c453f3, (-30));
(0x13239d6facac96, (-29));
(0x17932ac1e367c4, (-29));
(0x1b02270569f3e2, (-29));
(0x1cd500ca5b8dd2, (-29));
(0x1cb68620a8a90d, (-29));
(0x1ab06dfc321f44, (-29));
(0x17275247084fe2, (-29));
(0x12bc1ed523b145, (-29));
(0x1c3e6c71e2408e, (-30));
(0x13cba291c4c43a, (-30));
(0x19bbecf0b2ff19, (-31));
(0x1eeb693eb19f99, (-32));
(0x1117687a95555f, (-32));
(0x11497a5dc40549, (-33));
(0x1fc21f4962e42e, (-35));
(0x1a3d673e34c3a3, (-36));
(0x134139f5ffb3bf, (-37));
(0x18aa76a13a1ed4, (-39));
(0x1ae9a4f7989424, (-41));
(0x181befbd9d4690, (-43));
(0x10b40b040e9152, (-45));
(0x10000000000000, (-48));
(0x10000000000000, (-52))];
[(0x10e67000000000, (-32));
(0x1e05c8db14b3d1, (-32));
(0x1864b33200d21a, (-31));
(0x1241414edba795, (-30));
(0x194b73c54a1333, (-30));
(0x1049640ac5be73, (-29));
(0x138c189c8fdf64, (-29));
(0x15e913a4cbf769, (-29));
(0x16f7e8fb7fe533, (-29));
(0x16891b971ab579, (-29));
(0x14b3438cf23c79, (-29));
(0x11cbeb83ffa8ad, (-29));
(0x1c9e31ea96321a, (-30));
(0x157d8707198995, (-30));
(0x1e16237056f3d1, (-31));
(0x1394a8e3e00755, (-31));
(0x179d7ebeabd8e3, (-32));
(0x1a4624ebea9ff1, (-33));
(0x1ad0d79a9d2545, (-34));
(0x18ecfb0e42ab43, (-35));
(0x14e744ab36fbf0, (-36));
(0x1f3da0bdf1c145, (-38));
(0x1473ad2c8578d5, (-39));
(0x16e6d503345ab9, (-41));
(0x1527da2f8373c3, (-43));
(0x1e65b9edeba38d, (-46));
(0x1e65b9edeba38d, (-49));
(0x10000000000000, (-52))];
[(0x10fbc000000000, (-34));
(0x113dd95f264620, (-33));
(0x1fc37a85e4ac58, (-33));
(0x1accef60f8f16a, (-32));
(0x14dbcb71a5ead1, (-31));
(0x1e1b546bfdc611, (-31));
(0x143a54dac45e3c, (-30));
(0x196186b8ecfc61, (-30));
(0x1dcdded80b6b3e, (-30));
(0x106718802ab8b9, (-29));
(0x10f0ceb18aea8c, (-29));
(0x106cec7a220d9b, (-29));
(0x1de77a10dc1718, (-30));
(0x198befe89b4332, (-30));
(0x1476807f1c75cb, (-30));
(0x1eb1c0beaab0b1, (-31));
(0x158350c3e1102a, (-31));
(0x1c1b9413a85a4c, (-32));
(0x110ec0a4534b37, (-32));
(0x13267a5965622f, (-33));
(0x13c741e6f8e4ad, (-34));
(0x12a8f65f3171e4, (-35));
(0x1fdf3663e8cee0, (-37));
(0x1857b3926d6837, (-38));
(0x105ae64a25a1c9, (-39));
(0x12e29d7cda1ff9, (-41));
(0x12170dae7f6302, (-43));
(0x1b229485bf1483, (-46));
(0x1c90d29d2d43cd, (-49));
(0x10000000000000, (-52))];
[(0x19910000000000, (-37));
(0x1df4b5ce0965e8, (-36));
(0x1f75c1b04b9b3c, (-35));
(0x1e03866aa61249, (-34));
(0x1a43159d515000, (-33));
(0x1539c1dac8444d, (-32));
(0x1fdcabcfdd0b44, (-32));
(0x164c92e850fad0, (-31));
(0x1d324714c19575, (-31));
(0x11ebe53a12ebc4, (-30));
(0x14aa5d026eae4d, (-30));
(0x16690e92cfe916, (-30));
(0x16df5bf5068c3d, (-30));
(0x15fa3f22804814, (-30));
(0x13e121ad452b2f, (-30));
(0x10eb2ddeb6493d, (-30));
(0x1b11e2fdf0752f, (-31));
(0x1453ec8aaeab32, (-31));
(0x1c9a3251a5b9ac, (-32));
(0x12cde46442183a, (-32));
(0x1707ca2b9e02c3, (-33));
(0x1a2a0f5bad85dd, (-34));
(0x1b6d7987a04be3, (-35));
(0x1a5a03c3f6ed4b, (-36));
(0x170067860be365, (-37));
(0x12079f781d1c54, (-38));
(0x18fb98407ab925, (-40));
(0x1de9e283ebda69, (-42));
(0x1de9e283ebda69, (-44));
(0x179e38d26d4fc1, (-46));
(0x1a751f9447b724, (-49));
(0x10000000000000, (-52))];
[(0x1be40000000000, (-40));
(0x132cc000000000, (-38));
(0x173110e193a9bc, (-37));
(0x192b0159d615ca, (-36));
(0x18d6c7846620ca, (-35));
(0x1682a4cffc8db7, (-34));
(0x12de01a6075928, (-33));
(0x1d693c2255e304, (-33));
(0x15683b1c76b357, (-32));
(0x1d324714c19575, (-32));
(0x12b35e7f61a81b, (-31));
(0x168b4e3132ecb1, (-31));
(0x199ca2f0ed9cab, (-31));
(0x1b726e593b0eaf, (-31));
(0x1bc2d67c6c2527, (-31));
(0x1a81823c5c3994, (-31));
(0x17e29b1c4ca3a2, (-31));
(0x144d6a3e7457e3, (-31));
(0x104323a22555c1, (-31));
(0x18842b21697a94, (-32));
(0x115b97bf01eefa, (-32));
(0x1707ca2b9e02c3, (-33));
(0x1c8af97b48ef1f, (-34));
(0x1074e2849360bb, (-34));
(0x119157d7f9f387, (-35));
(0x11404da488ea8c, (-36));
(0x1ee87f170d5523, (-38));
(0x18fb98407ab925, (-39));
(0x11f2bb1bf3e972, (-40));
(0x166f69e2f0e3cf, (-42));
(0x179e38d26d4fc1, (-44));
(0x13d7d7af35c95b, (-46));
(0x18000000000000, (-49));
(0x10000000000000, (-52))];
[(0x14d00000000000, (-43));
(0x1148f97dd36283, (-41));
(0x187cb6c79620e5, (-40));
(0x1e8adbdfd4a242, (-39));
(0x111b6fdbf665ef, (-37));
(0x117242852df1fc, (-36));
(0x105b1e5cdb12dc, (-35));
(0x1c659c5c3127e1, (-35));
(0x16f3f4d9263e76, (-34));
(0x11595ed2f09ee9, (-33));
(0x189bb64d68b060, (-33));
(0x106b2c05c09833, (-32));
(0x14a7588136d58f, (-32));
(0x1887dbf8475ff4, (-32));
(0x1b8a4a3b432bed, (-32));
(0x1d3f84ad762e4e, (-32));
(0x1d653d2f78e0ee, (-32));
(0x1bf5ee18dfdfe7, (-32));
(0x192a2316631650, (-32));
(0x156aac93f5536c, (-32));
(0x11383c61b11381, (-32));
(0x1a2005a88892e7, (-33));
(0x12aa275e4c915b, (-33));
(0x190f50143f1e6d, (-34));
(0x1f86171548d24e, (-35));
(0x12823eb920caad, (-35));
(0x1431d961e5f8a3, (-36));
(0x145a352a7a2fd1, (-37));
(0x12ccfbd31b3f7b, (-38));
(0x1f8415119d5209, (-40));
(0x17a30fcd35fd87, (-41));
(0x1f1a9cd5bfff28, (-43));
(0x116bf48526b16e, (-44));
(0x1f9b61d0237250, (-47));
(0x151241356cf6e0, (-49));
(0x10000000000000, (-52))];
[(0x13000000000000, (-47));
(0x1428efb493fa27, (-45));
(0x1138b089b4cd47, (-43));
(0x191d56c8d25608, (-42));
(0x10231add25b038, (-40));
(0x12a4617a640d06, (-39));
(0x139ffe5e92af10, (-38));
(0x1302fe6b9e1998, (-37));
(0x1112b08200256d, (-36));
(0x1c95ea14777da3, (-36));
(0x166824c553b97d, (-35));
(0x108095ff0a9459, (-34));
(0x16e6c8da8fa114, (-34));
(0x1e0255d16b8f48, (-34));
(0x129891ab7c3e3c, (-33));
(0x15d38bb4a32cd7, (-33));
(0x1848a2a503d865, (-33));
(0x19a059ecd9a0e3, (-33));
(0x19a8912e999c7b, (-33));
(0x18602385debb0e, (-33));
(0x15f72881df1c30, (-33));
(0x12c3c37f82f8ab, (-33));
(0x1e5dfa0673b8d3, (-34));
(0x173eb6165b4dcb, (-34));
(0x10ce1b93fecb1e, (-34));
(0x16e6c8da8fa114, (-35));
(0x1d565ffe4bb267, (-36));
(0x119af851e65ae2, (-36));
(0x13b6d666641006, (-37));
(0x147cd3cf33601c, (-38));
(0x139ffe5e92af10, (-39));
(0x112bfe92c0592e, (-40));
(0x1b1da50f1d2a38, (-42));
(0x12fc1f9ac2ed70, (-43));
(0x16f640b79bbc5f, (-45));
(0x16f640b79bbc5f, (-47));
(0x116f8334644df8, (-49));
(0x10000000000000, (-52))];
[(0x10000000000000, (-52));
(0x18fae0c15ad389, (-50));
(0x1b38a81c8a0a22, (-48));
(0x17e6478d18dd3c, (-46));
(0x11ecb5a9d2a5ed, (-44));
(0x17b64ad0e4cf30, (-43));
(0x1c3917caf429f0, (-42));
(0x1ea3b521743a51, (-41));
(0x1ea3b521743a51, (-40));
(0x1c6ea70dc546d6, (-39));
(0x189f7f7e0a59d5, (-38));
(0x13fd753b0ae17e, (-37));
(0x1e890bce14d6c6, (-37));
(0x1600c7feb8c5cd, (-36));
(0x1dfc2fd890523d, (-36));
(0x135af5140215c4, (-35));
(0x17b48eff7c5ce1, (-35));
(0x1b92b45f6b0794, (-35));
(0x1e7bb10859d1aa, (-35));
(0x100611a0273bfe, (-34));
(0x100611a0273bfe, (-34));
(0x1e7bb10859d1aa, (-35));
(0x1b92b45f6b0794, (-35));
(0x17b48eff7c5ce1, (-35));
(0x135af5140215c4, (-35));
(0x1dfc2fd890523d, (-36));
(0x1600c7feb8c5cd, (-36));
(0x1e890bce14d6c6, (-37));
(0x13fd753b0ae17e, (-37));
(0x189f7f7e0a59d5, (-38));
(0x1c6ea70dc546d6, (-39));
(0x1ea3b521743a51, (-40));
(0x1ea3b521743a51, (-41));
(0x1c3917caf429f0, (-42));
(0x17b64ad0e4cf30, (-43));
(0x11ecb5a9d2a5ed, (-44));
(0x17e6478d18dd3c, (-46));
(0x1b38a81c8a0a22, (-48));
(0x18fae0c15ad389, (-50));
(0x10000000000000, (-52))]];
   [[(0x10000000000000, (-52))];
[(0x1a400000000000, (-45));
(0x147e7054af0989, (-48));
(0x10000000000000, (-52))];
[(0x1c930000000000, (-40));
(0x165c9d0fe9e508, (-42));
(0x1a2ffb1cb6d660, (-45));
(0x1471eeaf76c2c6, (-48));
(0x10000000000000, (-52))];
[(0x18a53000000000, (-36));
(0x1d11e95ce9a206, (-38));
(0x1c6fea761f3a5a, (-40));
(0x1633938af20fa5, (-42));
(0x19ffec4ebd772e, (-45));
(0x1458d455549c1a, (-48));
(0x10000000000000, (-52))];
[(0x1671de00000000, (-33));
(0x11c767af8beed0, (-34));
(0x18774d48baf1f4, (-36));
(0x1cb85ac88ffd2c, (-38));
(0x1c0729d56b64e5, (-40));
(0x15e1cb4379e577, (-42));
(0x19afd3271683e4, (-45));
(0x1432f24fb01c7a, (-48));
(0x10000000000000, (-52))];
[(0x18f04c00000000, (-31));
(0x18f04c00000000, (-32));
(0x1639419b6eea85, (-33));
(0x1179c97d17d165, (-34));
(0x17eef651cd52fa, (-36));
(0x1c0729d56b64e5, (-38));
(0x1b5a3e14585ed4, (-40));
(0x1567daa092c33e, (-42));
(0x193faee39c2398, (-45));
(0x14000000000000, (-48));
(0x10000000000000, (-52))];
[(0x126bac80000000, (-29));
(0x1662e5f2a4804e, (-30));
(0x189ffcf14e8d23, (-31));
(0x1861e0d753ef43, (-32));
(0x1591e372945ea0, (-33));
(0x10e159acd62efe, (-34));
(0x171016a780520b, (-36));
(0x1b02291489e4c9, (-38));
(0x1a6ba721c81bb7, (-40));
(0x14c6a57d607f2f, (-42));
(0x18af7e5fe2c795, (-45));
(0x13bf984cb56c77, (-48));
(0x10000000000000, (-52))];
[(0x13210bc0000000, (-28));
(0x1b8c8d596ce280, (-29));
(0x12228ee4bb89dc, (-29));
(0x15c311df47723b, (-30));
(0x17b3cc981c9a44, (-31));
(0x174c523b7b7d51, (-32));
(0x14830a6f3d42b7, (-33));
(0x100397c4eb44ba, (-34));
(0x15e11c32637a5c, (-36));
(0x19af05a547371a, (-38));
(0x193ee4e2fcf79a, (-40));
(0x13ff5ffd7febff, (-42));
(0x17ff3ffcffe7ff, (-45));
(0x137135779c8dca, (-48));
(0x10000000000000, (-52))];
[(0x1d032fb0000000, (-28));
(0x1854a539410685, (-28));
(0x12c5811715a597, (-28));
(0x1a9d69a54010f6, (-29));
(0x114cb7de9cd7d3, (-29));
(0x148e19f41ff619, (-30));
(0x1639998deaa071, (-31));
(0x15bdbf9c2c4a4e, (-32));
(0x131873f1e97fe2, (-33));
(0x1dd106c78d32b5, (-35));
(0x146acf3534a216, (-36));
(0x181535412be3ff, (-38));
(0x17d87730284ee0, (-40));
(0x1313928ced0be6, (-42));
(0x172ef17c404c54, (-45));
(0x13142b30a929ab, (-48));
(0x10000000000000, (-52))];
[(0x107f4d50000000, (-27));
(0x1fd623973cef19, (-28));
(0x1c5e1df94553d6, (-28));
(0x17585e33270b6b, (-28));
(0x11bb6099079a72, (-28));
(0x18d320d63dd839, (-29));
(0x1ff444df5c0151, (-30));
(0x12d8759ffd8ac7, (-30));
(0x144762738d6c0a, (-31));
(0x13ca45c834365a, (-32));
(0x1161c219e6eee4, (-33));
(0x1b34a21aeefa63, (-35));
(0x12b81a496fe4a7, (-36));
(0x163dddcecd2bb9, (-38));
(0x163dddcecd2bb9, (-40));
(0x12051f456dfeae, (-42));
(0x163e8fc613448b, (-45));
(0x12a79e3a2cd2e5, (-48));
(0x10000000000000, (-52))];
[(0x1ca73570000000, (-28));
(0x1f8bcc8d672106, (-28));
(0x1010a0e8c16898, (-27));
(0x1e502bcb34998d, (-28));
(0x1a8161d95d7850, (-28));
(0x1579757e4b2347, (-28));
(0x101b181eb85a75, (-28));
(0x165375d3387f93, (-29));
(0x1c87636211335f, (-30));
(0x10bea50d1fb055, (-30));
(0x11f9abac3b4c15, (-31));
(0x118ac54ab37bc7, (-32));
(0x1ee36d870cd94e, (-34));
(0x184a0fe0b09ee1, (-35));
(0x10d5c259d7979b, (-36));
(0x1433b605691c54, (-38));
(0x147598688aeaf0, (-40));
(0x10d6490e3ae36b, (-42));
(0x152e1691907245, (-45));
(0x122a788fc76de5, (-48));
(0x10000000000000, (-52))];
[(0x1339e4b0000000, (-28));
(0x1805fc0fc79780, (-28));
(0x1bc574aaa730ae, (-28));
(0x1dc622f86838d1, (-28));
(0x1da6a966065082, (-28));
(0x1b739651b90773, (-28));
(0x17a18c0ca1b659, (-28));
(0x12e7a33d4e2b7b, (-28));
(0x1c13eed8f9fb36, (-29));
(0x1351bf33425e8c, (-29));
(0x18918399899e92, (-30));
(0x1cc58651484729, (-31));
(0x1ee2d1534debeb, (-32));
(0x1e36b3ae7b0b34, (-33));
(0x1aba8477d9770c, (-34));
(0x152c14db9742c9, (-35));
(0x1da41d336d5d80, (-37));
(0x1202de7d769067, (-38));
(0x1287267ba92f11, (-40));
(0x1f1379e1c81502, (-43));
(0x13fd7fd7faff37, (-45));
(0x119b58598f7c9e, (-48));
(0x10000000000000, (-52))];
[(0x140fe380000000, (-29));
(0x1c5f3e506b6368, (-29));
(0x12880824b678db, (-28));
(0x16714ece56ed13, (-28));
(0x194398ed8ec1c5, (-28));
(0x1a7be25ebca105, (-28));
(0x19e1ac388f7945, (-28));
(0x17971257e5b879, (-28));
(0x140d35fde9a99a, (-28));
(0x1fc437c6052af2, (-29));
(0x176b268a6c9d97, (-29));
(0x100940ea83ed04, (-29));
(0x14583662e74d79, (-30));
(0x17d33be0147615, (-31));
(0x19a31cb7e0000e, (-32));
(0x19332ff45f7c7b, (-33));
(0x1674dd53166f2b, (-34));
(0x11f71775ab8c23, (-35));
(0x1978c0ed20439c, (-37));
(0x1f71649cff693f, (-39));
(0x107b0740406c23, (-40));
(0x1c453caec66791, (-43));
(0x12acc2ee19c489, (-45));
(0x10f876ccdf6cd9, (-48));
(0x10000000000000, (-52))];
[(0x104bec00000000, (-30));
(0x1a13dd76891c6d, (-30));
(0x13353d31853b03, (-29));
(0x1a2ebad73c9765, (-29));
(0x109330e86416ab, (-28));
(0x138c189c8fdf64, (-28));
(0x15840106be7234, (-28));
(0x162205ec293722, (-28));
(0x154b4b61065299, (-28));
(0x132a2a3db8e3f0, (-28));
(0x102127343c047f, (-28));
(0x195dfa4f6a9647, (-29));
(0x129c7668921809, (-29));
(0x196d7ebcb77814, (-30));
(0x1021336bb1d090, (-30));
(0x12ef2df9223cb9, (-31));
(0x1478f827be0551, (-32));
(0x1445553af88b8d, (-33));
(0x123e664eac7d99, (-34));
(0x1d8fd60bca6a95, (-36));
(0x154976ff7fd2b0, (-37));
(0x1ac71c1086135f, (-39));
(0x1cb572eef909c5, (-41));
(0x19492e7d33fb7e, (-43));
(0x113bd2f90a1cb4, (-45));
(0x103f81f636b80b, (-48));
(0x10000000000000, (-52))];
[(0x14858800000000, (-32));
(0x129f807e2c9d98, (-31));
(0x1ef2534eed40b9, (-31));
(0x17b4c1ed9bea5d, (-30));
(0x10d48740422b15, (-29));
(0x163c3d82f094bd, (-29));
(0x1b6a2166ff7c41, (-29));
(0x1f9cb3220c9ee7, (-29));
(0x11128eb06c44d7, (-28));
(0x114a3c4aaa950f, (-28));
(0x106cec7a220d9b, (-28));
(0x1d464a74250444, (-29));
(0x1875835ac4d18f, (-29));
(0x13242b7c906dca, (-29));
(0x1c051d3c2f0fde, (-30));
(0x13242b7c906dca, (-30));
(0x18578dbfffe561, (-31));
(0x1cb656f9ffea0e, (-32));
(0x1f45b68298b490, (-33));
(0x1f45b68298b490, (-34));
(0x1c80ee3a9598c7, (-35));
(0x1775048d05a7a0, (-36));
(0x11367a7586539c, (-37));
(0x162516bc9fbf30, (-39));
(0x1861761c2b8588, (-41));
(0x1627dbe4718fff, (-43));
(0x1f553848924e81, (-46));
(0x1edac054c8f94c, (-49));
(0x10000000000000, (-52))];
[(0x13d06000000000, (-34));
(0x1482682d0be1ec, (-33));
(0x1346d554ba3653, (-32));
(0x109c0d4c044f80, (-31));
(0x1a6cf924855aab, (-31));
(0x1382ebaab40587, (-30));
(0x1ada087fe234eb, (-30));
(0x1145d7a0b68212, (-29));
(0x14d2a71b85acec, (-29));
(0x178ff136ff5c7a, (-29));
(0x190e39820ac4a1, (-29));
(0x190e39820ac4a1, (-29));
(0x17917a32449dc8, (-29));
(0x14d986b4ff2efb, (-29));
(0x11562352bbaa91, (-29));
(0x1b11e2fdf0752f, (-30));
(0x13d0285e8d5538, (-30));
(0x1b22721186e62d, (-31));
(0x1156307438a6c3, (-31));
(0x14995aca06d440, (-32));
(0x16a8b0ab078313, (-33));
(0x16f29654ba5e84, (-34));
(0x153ecf997bc5f3, (-35));
(0x11d1236ff33556, (-36));
(0x1abe133d3978d5, (-38));
(0x11aa5e4fdbcdc6, (-39));
(0x141110b8294646, (-41));
(0x12eb4588fd38ab, (-43));
(0x1bf1fc7e3ee73b, (-46));
(0x1cfb95bb9dcc0c, (-49));
(0x10000000000000, (-52))];
[(0x1cc32000000000, (-37));
(0x112684fc3c7f9f, (-35));
(0x12581b529080f3, (-34));
(0x11d60d0153bb4d, (-33));
(0x1fd59be86a820e, (-33));
(0x1a43159d515000, (-32));
(0x1422ea2ca339a9, (-31));
(0x1cd1fc94ffcc1d, (-31));
(0x134fc51d6666fc, (-30));
(0x184af994d6c51e, (-30));
(0x1cbcfff0689075, (-30));
(0x1001e5d69481eb, (-29));
(0x10cecaee1beed0, (-29));
(0x10a4664d35ef39, (-29));
(0x1f14b6dac2f195, (-30));
(0x1b5d293d970e0c, (-30));
(0x16b2e2fae6a6cb, (-30));
(0x11b8acfe70745f, (-30));
(0x1a00e1c698f2b6, (-31));
(0x11e459bf472398, (-31));
(0x1707ca2b9e02c3, (-32));
(0x1ba2f29abd9cea, (-33));
(0x1ec995f9176c03, (-34));
(0x1fabb35d89c633, (-35));
(0x1de142fdaa41f2, (-36));
(0x19a0b20a12615d, (-37));
(0x13c0295dce32ac, (-38));
(0x1aec18a9edde2c, (-40));
(0x1fba69d6d6ee67, (-42));
(0x1f3e665be98228, (-44));
(0x184d82d583b13d, (-46));
(0x1ad5336963eefb, (-49));
(0x10000000000000, (-52))];
[(0x1e5a0000000000, (-40));
(0x1534dd953a6951, (-38));
(0x1a149f30a47a4b, (-37));
(0x1ccbb0db995be0, (-36));
(0x1cee743d4ebfcf, (-35));
(0x1ab5893a7ea3c2, (-34));
(0x16d221de202f91, (-33));
(0x122559f841bc08, (-32));
(0x1af86410dc74a0, (-32));
(0x12cb7c0f2f56d2, (-31));
(0x18a0c208a0e44d, (-31));
(0x1e66c31db22147, (-31));
(0x11b41919330287, (-30));
(0x13794eceeb4f95, (-30));
(0x143efff4cedb95, (-30));
(0x13e69c63517573, (-30));
(0x127e86953fac5a, (-30));
(0x103e61affa3bb3, (-30));
(0x1af2e15d224448, (-31));
(0x1516f6da4a5b38, (-31));
(0x1f1856a9dc21b1, (-32));
(0x158d5634f02f99, (-32));
(0x1c0489ab383de1, (-33));
(0x110658c8f31ce0, (-33));
(0x1343b8c5e56413, (-34));
(0x1431d961e5f8a3, (-35));
(0x137c64e1b9c2d1, (-36));
(0x1129a2054985b4, (-37));
(0x1b4b2a0b15ce9d, (-39));
(0x134cabd4621d24, (-40));
(0x17c18bbd39e7d1, (-42));
(0x18a3543df21a96, (-44));
(0x1466f6f4f6ca72, (-46));
(0x1854bfb363dc39, (-49));
(0x10000000000000, (-52))];
[(0x15f80000000000, (-43));
(0x12849f6c24f474, (-41));
(0x1aa35803efe192, (-40));
(0x10e069b7986948, (-38));
(0x133741ebc82b2c, (-37));
(0x13ede3c018efc7, (-36));
(0x1302fe6b9e1998, (-35));
(0x10cddafd35254a, (-34));
(0x1bad8a45ac8c52, (-34));
(0x1554a563d0221a, (-33));
(0x1edf79fffac0b0, (-33));
(0x15094fbf6842e6, (-32));
(0x1b0cc36dc7469b, (-32));
(0x106fc9cde5ed1d, (-31));
(0x12e6f4dffb9d7b, (-31));
(0x149668b5d3d044, (-31));
(0x153f8e50635d58, (-31));
(0x14c925c496252e, (-31));
(0x1345434a2a3829, (-31));
(0x10ecef36053b88, (-31));
(0x1c25a53f447501, (-32));
(0x162235e2d99a16, (-32));
(0x106fc9cde5ed1d, (-32));
(0x1702e7537518c3, (-33));
(0x1e4bbc2908261e, (-34));
(0x12b2f18db20294, (-34));
(0x158fe36db3313e, (-35));
(0x171df1088bcf35, (-36));
(0x16e7e530d56b4c, (-37));
(0x14d0bffc8a80c6, (-38));
(0x112bfe92c0592e, (-39));
(0x195d5068d9eb5b, (-41));
(0x1070fd896572f9, (-42));
(0x12272ab892ba63, (-44));
(0x103c8d6b3ce143, (-46));
(0x155aaa002a9d59, (-49));
(0x10000000000000, (-52))];
[(0x13800000000000, (-47));
(0x14f9b5ea528e34, (-45));
(0x122c01521ace83, (-43));
(0x1ae3107ebbf8e4, (-42));
(0x11890aaa0bb2d8, (-40));
(0x1492256b7f758c, (-39));
(0x1600556b5a2bd7, (-38));
(0x15aa56bb1926bc, (-37));
(0x13c9ba5045baff, (-36));
(0x10dbb5c712989e, (-35));
(0x1ae996adce6cce, (-35));
(0x14327d70b01969, (-34));
(0x1c95328cb23c9d, (-34));
(0x131ca0db6a7748, (-33));
(0x1831b259029b35, (-33));
(0x1d086f9e0320a6, (-33));
(0x10878b74452c98, (-32));
(0x11df51d91fa3d5, (-32));
(0x125b829fecb128, (-32));
(0x11ea409d2fec8f, (-32));
(0x109bf016c9f59e, (-32));
(0x1d3ee30633c646, (-33));
(0x186f53b7021566, (-33));
(0x135af5140215c4, (-33));
(0x1d086f9e0320a6, (-34));
(0x1494fbfffc8075, (-34));
(0x1b8630ad6943da, (-35));
(0x114fd93c04a811, (-35));
(0x146a959e55fa44, (-36));
(0x167a47b418cb7d, (-37));
(0x16fac7d9172bbc, (-38));
(0x15aa56bb1926bc, (-39));
(0x12aaf324c8a152, (-40));
(0x1d0a8f2e5996e4, (-42));
(0x140a55549fa7d2, (-43));
(0x17e6478d18dd3c, (-45));
(0x179308a1dd9649, (-47));
(0x11a9dc8f6df103, (-49));
(0x10000000000000, (-52))];
[(0x10000000000000, (-52));
(0x194c583ada5b52, (-50));
(0x1bedb0defaf661, (-48));
(0x18d97bee3631de, (-46));
(0x12e4ecb563c294, (-44));
(0x19596a56795b9c, (-43));
(0x1e9cb6ae49809a, (-42));
(0x10ddd1a306d4dc, (-40));
(0x1120c40c6f17fa, (-39));
(0x1025ff31e97065, (-38));
(0x1c6ea70dc546d6, (-38));
(0x177a26484a6ca6, (-37));
(0x123f941da8935d, (-36));
(0x1ac800c35c4ae2, (-36));
(0x129891ab7c3e3c, (-35));
(0x187b94924679b5, (-35));
(0x1e9a79b6d81822, (-35));
(0x122e5f394e1ee4, (-34));
(0x148d3f6d1d5e79, (-34));
(0x161d64932f5ccd, (-34));
(0x16a9338f0ba4c5, (-34));
(0x161d64932f5ccd, (-34));
(0x148d3f6d1d5e79, (-34));
(0x122e5f394e1ee4, (-34));
(0x1e9a79b6d81822, (-35));
(0x187b94924679b5, (-35));
(0x129891ab7c3e3c, (-35));
(0x1ac800c35c4ae2, (-36));
(0x123f941da8935d, (-36));
(0x177a26484a6ca6, (-37));
(0x1c6ea70dc546d6, (-38));
(0x1025ff31e97065, (-38));
(0x1120c40c6f17fa, (-39));
(0x10ddd1a306d4dc, (-40));
(0x1e9cb6ae49809a, (-42));
(0x19596a56795b9c, (-43));
(0x12e4ecb563c294, (-44));
(0x18d97bee3631de, (-46));
(0x1bedb0defaf661, (-48));
(0x194c583ada5b52, (-50));
(0x10000000000000, (-52))]];
   [[(0x15000000000000, (-48));
(0x10000000000000, (-52))];
[(0x18100000000000, (-42));
(0x1b87fed67276aa, (-45));
(0x14f9e6bbc4ecb3, (-48));
(0x10000000000000, (-52))];
[(0x106e2000000000, (-37));
(0x1f703ff387fcdf, (-40));
(0x17faf6ce13d68a, (-42));
(0x1b67f57dcd877a, (-45));
(0x14e790422e898e, (-48));
(0x10000000000000, (-52))];
[(0x151fe000000000, (-34));
(0x1c7538e24b7c6a, (-36));
(0x1055fe4740eb58, (-37));
(0x1f26bf8ebf1cb0, (-40));
(0x17bbffa9b62e3d, (-42));
(0x1b27e28a6544ba, (-45));
(0x14c8dc2e42397f, (-48));
(0x10000000000000, (-52))];
[(0x1f2c5f00000000, (-32));
(0x1b37e32fd2d7f8, (-33));
(0x14f3e1dbb5a189, (-34));
(0x1c107fffedc19b, (-36));
(0x100e1757c22eff, (-37));
(0x1e94bebf8a4122, (-40));
(0x1753884fbba43e, (-42));
(0x1ac7c5735a6f90, (-45));
(0x149d93405be848, (-48));
(0x10000000000000, (-52))];
[(0x1d791400000000, (-30));
(0x1fca69e0cedc57, (-31));
(0x1ed76bc05e83b8, (-32));
(0x1ab5a2945f8d97, (-33));
(0x14716a43e6109e, (-34));
(0x1b49cfcc87f6c6, (-36));
(0x1f2fc8e9bff575, (-38));
(0x1dbc3d7a08d25b, (-40));
(0x16c24907302296, (-42));
(0x1a479d5f29b629, (-45));
(0x1465655f122ff6, (-48));
(0x10000000000000, (-52))];
[(0x13210bc0000000, (-28));
(0x18b6bd87293452, (-29));
(0x1d14a7ba396e7d, (-30));
(0x1f089d314e92e2, (-31));
(0x1ddcb55ae50336, (-32));
(0x19b68727de55fb, (-33));
(0x139cf48f96b144, (-34));
(0x1a269b6a1e41b0, (-36));
(0x1debab3c5b278a, (-38));
(0x1ca03baacbdfee, (-40));
(0x160946c5832f83, (-42));
(0x19a76913285548, (-45));
(0x141fe68f0af33c, (-48));
(0x10000000000000, (-52))];
[(0x11da9380000000, (-27));
(0x1b0d77fe5ed0b3, (-28));
(0x12d1cf704f7f20, (-28));
(0x17fd86f618edcf, (-29));
(0x1bedc9b0d481c6, (-30));
(0x1d8fe00eed7105, (-31));
(0x1c48694e1a00f8, (-32));
(0x18451d7ecad8f6, (-33));
(0x127dcd5469c9e0, (-34));
(0x18aee789fac456, (-36));
(0x1c5694a3a37056, (-38));
(0x1b44b9348ea6ee, (-40));
(0x1529d653304531, (-42));
(0x18e726d9eef1e5, (-45));
(0x13cc8a99af5452, (-48));
(0x10000000000000, (-52))];
[(0x18bef3f8000000, (-27));
(0x15aa889626e72f, (-27));
(0x118246a65d4890, (-27));
(0x1a19c853119a07, (-28));
(0x11ea6b3495359a, (-28));
(0x169852de59c474, (-29));
(0x1a172964f3fd20, (-30));
(0x1b752afe66c08b, (-31));
(0x1a2e0c7589694b, (-32));
(0x16709cf708111c, (-33));
(0x111dd1a88fd871, (-34));
(0x16ed1a6a48a180, (-36));
(0x1a790e7dc65160, (-38));
(0x19aeb5ec811fad, (-40));
(0x1425a09ac33e5b, (-42));
(0x1806d45c92a8e9, (-45));
(0x136a9ef26f762e, (-48));
(0x10000000000000, (-52))];
[(0x1a0c5f20000000, (-27));
(0x1a15a07513d4e8, (-27));
(0x182e7998413fa4, (-27));
(0x14c3535056d1e6, (-27));
(0x1081ee2942363c, (-27));
(0x1847cc64814351, (-28));
(0x107d25ab5b6af3, (-28));
(0x14a05748dc3a1f, (-29));
(0x17ae3b2a7134f9, (-30));
(0x18d61f23703e9b, (-31));
(0x17a75a9ba7da1a, (-32));
(0x144c32b6aa2d67, (-33));
(0x1f122bf23b6ce5, (-35));
(0x14edbbd2458ef9, (-36));
(0x185d5173d4eedc, (-38));
(0x17e431944f266b, (-40));
(0x12fea85fa6c2da, (-42));
(0x17066e67ba9069, (-45));
(0x12f9422c23c47d, (-48));
(0x10000000000000, (-52))];
[(0x15261528000000, (-27));
(0x180cf821f8a1f4, (-27));
(0x195a03f50136e8, (-27));
(0x18cecda07f0c43, (-27));
(0x168dc0859b32db, (-27));
(0x130d4cff65d8ff, (-27));
(0x1de42396b8d822, (-28));
(0x15bfbfbbca7dae, (-28));
(0x1d4c98b4b82401, (-29));
(0x12386dafffbe1c, (-29));
(0x14d8d46411e752, (-30));
(0x15d6f6e2bd6c3d, (-31));
(0x14d2c67fffb4b3, (-32));
(0x11ee19a9eda20b, (-33));
(0x1b9aebf080ea81, (-35));
(0x12bf250c4947ce, (-36));
(0x160f2366a92867, (-38));
(0x15ec2bd06344e7, (-40));
(0x11b751b5508c11, (-42));
(0x15e5f090a5880f, (-45));
(0x127757ebaf9368, (-48));
(0x10000000000000, (-52))];
[(0x1abfda00000000, (-28));
(0x113246740aa3cf, (-27));
(0x147cb9790147bc, (-27));
(0x16acd8a6c93770, (-27));
(0x175b4bbf548a54, (-27));
(0x166a003b86e12c, (-27));
(0x140c395a5110c2, (-27));
(0x10b5acfe42b800, (-27));
(0x19efed96ce7a54, (-28));
(0x12b7f490a6a779, (-28));
(0x191272dd9dcb2e, (-29));
(0x1f13ad095bee42, (-30));
(0x11c219bc348825, (-30));
(0x129ffd8eafbb81, (-31));
(0x11d1ada53ba4b3, (-32));
(0x1edd0eff9ae4bf, (-34));
(0x17f41f478f6584, (-35));
(0x107120dc4a73ad, (-36));
(0x139badb0965cce, (-38));
(0x13cea41799d8a2, (-40));
(0x10526bb68dd826, (-42));
(0x14a554a4fbc4ea, (-45));
(0x11e3779b97f4a7, (-48));
(0x10000000000000, (-52))];
[(0x1a7b5f80000000, (-29));
(0x13353d31853b03, (-28));
(0x19c52b1f768437, (-28));
(0x100c73ba772d46, (-27));
(0x129bc1f20690fd, (-27));
(0x14204416ba795d, (-27));
(0x14549317c8250a, (-27));
(0x1331bafc62859a, (-27));
(0x10f07a6a049ca3, (-27));
(0x1befe72d1c1ca9, (-28));
(0x1581899afab0a9, (-28));
(0x1edcf79f563537, (-29));
(0x14994b2ffbc754, (-29));
(0x1980d6fe74ada5, (-30));
(0x1d2e0163721663, (-31));
(0x1eb5743b9d07f9, (-32));
(0x1d8cb00b434aa4, (-33));
(0x19ccf148511232, (-34));
(0x143d57db61e98d, (-35));
(0x1c28f6e0c7a865, (-37));
(0x11114acee6dae3, (-38));
(0x11949996fa99cf, (-40));
(0x1da67a6e5120e7, (-43));
(0x134491be50521a, (-45));
(0x113bd2f90a1cb4, (-48));
(0x10000000000000, (-52))];
[(0x14858800000000, (-30));
(0x10cc5192447050, (-29));
(0x1957c652b22350, (-29));
(0x11b5786b875827, (-28));
(0x170407490b08c9, (-28));
(0x1be65ad585ad7c, (-28));
(0x1f9cb3220c9ee7, (-28));
(0x10c3cd59866c53, (-27));
(0x10a93a2e120c1c, (-27));
(0x1f0a8f15ad752e, (-28));
(0x1b1a5d766dc76c, (-28));
(0x162afa6a166cc8, (-28));
(0x10f7894e2f8bcb, (-28));
(0x1844195fffdba7, (-29));
(0x102d663fffe7c4, (-29));
(0x140d452ddb1993, (-30));
(0x170561fea72f4e, (-31));
(0x185e00528574be, (-32));
(0x17a3c00902a21d, (-33));
(0x14dcce6aa98525, (-34));
(0x109630549dba91, (-35));
(0x1775048d05a7a0, (-37));
(0x1cfe946106af8e, (-39));
(0x1e9015fcd3f7cf, (-41));
(0x1a7b2b07fb8cc4, (-43));
(0x11c39aad23f464, (-45));
(0x107e0f66afed06, (-48));
(0x10000000000000, (-52))];
[(0x18c47800000000, (-32));
(0x16f1a06233fb7f, (-31));
(0x1379f90d4b9229, (-30));
(0x1e8384a986bf48, (-30));
(0x162ccd885bdee6, (-29));
(0x1e05671b351f49, (-29));
(0x12fcacecf6a56e, (-28));
(0x167dc357681e18, (-28));
(0x18fdd7451b122a, (-28));
(0x1a1422fd09fdd6, (-28));
(0x19927d98a434ce, (-28));
(0x17917a32449dc8, (-28));
(0x1469250729697b, (-28));
(0x109931907f9e05, (-28));
(0x195250bfe827ca, (-29));
(0x121639ada5d347, (-29));
(0x1824a52f4542f0, (-30));
(0x1e072b583c7fb4, (-31));
(0x1156307438a6c3, (-31));
(0x12803e5f4b9d14, (-32));
(0x122444dc8c840f, (-33));
(0x1039f5e12e8400, (-34));
(0x1a39d060d4fe4e, (-36));
(0x12e8e7fa70d263, (-37));
(0x17eb50d63349cf, (-39));
(0x19e7ec3c7f19bc, (-41));
(0x172bc5a6fc1b2c, (-43));
(0x10225b1d5e28c6, (-45));
(0x1f4e115049ec25, (-49));
(0x10000000000000, (-52))];
[(0x17028000000000, (-34));
(0x18445d8223c64d, (-33));
(0x174166e12e3963, (-32));
(0x14722e60951bd4, (-31));
(0x109c0d4c044f80, (-30));
(0x1911d12d6d799e, (-30));
(0x11a6135e17ec38, (-29));
(0x1741165e75704d, (-29));
(0x1cbe63ef25f18c, (-29));
(0x10b207d798c381, (-28));
(0x12405286ff08b2, (-28));
(0x12caab21881379, (-28));
(0x123b08b0bf4082, (-28));
(0x10aa500f5346a9, (-28));
(0x1cb3132f4b0165, (-29));
(0x1742630df398bd, (-29));
(0x11b8acfe70745f, (-29));
(0x1958536f955aff, (-30));
(0x10f94d55bf2b5f, (-30));
(0x153ba648f708af, (-31));
(0x18b8068c0831e6, (-32));
(0x1aa9a74f3ab16f, (-33));
(0x1a7f6397f878fd, (-34));
(0x1817082c641125, (-35));
(0x13d9e492363193, (-36));
(0x1d4b7fe4b106ee, (-38));
(0x130972b41a8f0a, (-39));
(0x1548ae3a1cdfc1, (-41));
(0x13c2a1d9939a40, (-43));
(0x1cc16423e7b94b, (-46));
(0x1d64d51e0db1c5, (-49));
(0x10000000000000, (-52))];
[(0x101fd000000000, (-36));
(0x138f77647b5bb8, (-35));
(0x154b705bd49817, (-34));
(0x151655acc0d367, (-33));
(0x132dd4ef0b9bcf, (-32));
(0x102302e8ac82f0, (-31));
(0x19420e38edc848, (-31));
(0x12771d0094055f, (-30));
(0x194da8ce038d2c, (-30));
(0x104a34950a5a85, (-29));
(0x13bf0d6478fd52, (-29));
(0x16915067feb8ee, (-29));
(0x1857a282a6237a, (-29));
(0x18cbda3ac53bf2, (-29));
(0x17dc394ffeeadd, (-29));
(0x15afb937c23da3, (-29));
(0x129c064c5f190f, (-29));
(0x1e212ec4cabadc, (-30));
(0x16fb62898d5898, (-30));
(0x107d9b65665116, (-30));
(0x163723faa3e369, (-31));
(0x1c0489ab383de1, (-32));
(0x107bf37f295cc9, (-32));
(0x1205340b49a042, (-33));
(0x123409ff218339, (-34));
(0x10e01373f4c9a2, (-35));
(0x1c760411252a0d, (-37));
(0x1593d69d6975d8, (-38));
(0x1cf301be932bb6, (-40));
(0x10cc4d64834927, (-41));
(0x104be7f22f8974, (-43));
(0x18fccc98584fe6, (-46));
(0x1b33f3f1490dee, (-49));
(0x10000000000000, (-52))];
[(0x107a0000000000, (-39));
(0x17632fe5cf8cb5, (-38));
(0x1d3b2cbc92cf4b, (-37));
(0x10689da43dd71f, (-35));
(0x10c5e1461ec299, (-34));
(0x1f86ff06a10d2e, (-34));
(0x1b70e686c95baf, (-33));
(0x163e34c9a8738f, (-32));
(0x10dd050ec974bd, (-31));
(0x17ff3a104a265e, (-31));
(0x1011197ffe3fde, (-30));
(0x144992925574f4, (-30));
(0x1831b259029b35, (-30));
(0x1b486ea1cbf80d, (-30));
(0x1d1d7be24a1a64, (-30));
(0x1d6ab9628c9c07, (-30));
(0x1c24de2935eaad, (-30));
(0x197e17e449e4d6, (-30));
(0x15d9cb55f631dc, (-30));
(0x11b573d9c3abc4, (-30));
(0x1b1ba988a31bff, (-31));
(0x139045137fb4a4, (-31));
(0x1a923ac5a541b8, (-32));
(0x10ef967181d30b, (-32));
(0x14327d70b01969, (-33));
(0x16714830c09a3b, (-34));
(0x171df1088bcf35, (-35));
(0x15ee4096620d1a, (-36));
(0x130075fe919d19, (-37));
(0x1dbe15f03bb100, (-39));
(0x14b5c4cd8d13eb, (-40));
(0x191d56c8d25608, (-42));
(0x19ac16200f654d, (-44));
(0x14f6160a735086, (-46));
(0x18a85c24f70659, (-49));
(0x10000000000000, (-52))];
[(0x17280000000000, (-43));
(0x13cd67b431d580, (-41));
(0x1ce94b7db1fbfc, (-40));
(0x129959028e338a, (-38));
(0x158377adb86f65, (-37));
(0x16adad398bb0b6, (-36));
(0x1600556b5a2bd7, (-35));
(0x13c9ba5045baff, (-34));
(0x1097bdec0b9f3a, (-33));
(0x1a0ed0c278e35d, (-33));
(0x133a28eb0adcdc, (-32));
(0x1abc9c8a05f9af, (-32));
(0x118e2a8607e1e6, (-31));
(0x15ceec3835f6a5, (-31));
(0x19a96849b50f3b, (-31));
(0x1ca140200f4374, (-31));
(0x1e4dd4ffd42717, (-31));
(0x1e71418ffe35f0, (-31));
(0x1d0694012e29cd, (-31));
(0x1a42e76ec83e34, (-31));
(0x168908a31c98f7, (-31));
(0x12537ec941900d, (-31));
(0x1c37078b306eff, (-32));
(0x148786a15da5c8, (-32));
(0x1c2eda9f49ad05, (-33));
(0x12349de05406b6, (-33));
(0x1611854539c1e5, (-34));
(0x19013b84e70887, (-35));
(0x1a5b7dd36b90a5, (-36));
(0x19b12612a6a3f7, (-37));
(0x16fac7d9172bbc, (-38));
(0x12aaf324c8a152, (-39));
(0x1b2a64b7ed25d1, (-41));
(0x115affbd9f8b58, (-42));
(0x12e4ecb563c294, (-44));
(0x10ab69cbeeb194, (-46));
(0x15a22073490376, (-49));
(0x10000000000000, (-52))];
[(0x14000000000000, (-47));
(0x15cd39c5a1322c, (-45));
(0x1325da4b440dd7, (-43));
(0x1cbb774b6ea9a9, (-42));
(0x13030fc0db04b5, (-40));
(0x16a353ee9af4d9, (-39));
(0x18963fa1f75abd, (-38));
(0x189923f6625b63, (-37));
(0x16d65abb3ecaa3, (-36));
(0x13c9ba5045baff, (-35));
(0x1012de3b959c85, (-34));
(0x18914e1d7c1280, (-34));
(0x11b6d1d918d67b, (-33));
(0x1828291ad16fbb, (-33));
(0x1f35a0ee46e6ef, (-33));
(0x13208c12470f15, (-32));
(0x16446b0efe9e3b, (-32));
(0x18a403b3ddcb4a, (-32));
(0x19ee925376065d, (-32));
(0x19f61c7367f979, (-32));
(0x18b9a130f54f1e, (-32));
(0x16654fd3b76296, (-32));
(0x1348b4fc11c07d, (-32));
(0x1f8b97aa936029, (-33));
(0x187b94924679b5, (-33));
(0x120166b0da22c5, (-33));
(0x190d341bcfb63d, (-34));
(0x1072e76e295972, (-34));
(0x1454f132e24446, (-35));
(0x179323cedb6e18, (-36));
(0x19886c468b85ee, (-37));
(0x19b12612a6a3f7, (-38));
(0x17da516b0a0b0b, (-39));
(0x143f7fb28f77e6, (-40));
(0x1f0be0d23398ef, (-42));
(0x151fd89d6521ad, (-43));
(0x18d97bee3631de, (-45));
(0x182fd05f129838, (-47));
(0x11e3779b97f4a7, (-49));
(0x10000000000000, (-52))];
[(0x10000000000000, (-52));
(0x199ccc999fff00, (-50));
(0x1ca2b9714180f6, (-48));
(0x19cfd35eafe2ff, (-46));
(0x13e3abf005c4f2, (-44));
(0x1b0d6c123b6191, (-43));
(0x1090f008a98844, (-41));
(0x1285832dc1b0ef, (-40));
(0x1317706ad3cc17, (-39));
(0x12475de0bf5afa, (-38));
(0x10595a5295ae08, (-37));
(0x1b7222ed9f4c89, (-37));
(0x15b2a608f302c7, (-36));
(0x10342515ddf406, (-35));
(0x16ea5cdba759e2, (-35));
(0x1ebe8d2f44297a, (-35));
(0x1398830fec92a6, (-34));
(0x17c36a10ebf7a7, (-34));
(0x1b7085941d63c9, (-34));
(0x1e30a77fe628d7, (-34));
(0x1fa9e189d4ec99, (-34));
(0x1fa9e189d4ec99, (-34));
(0x1e30a77fe628d7, (-34));
(0x1b7085941d63c9, (-34));
(0x17c36a10ebf7a7, (-34));
(0x1398830fec92a6, (-34));
(0x1ebe8d2f44297a, (-35));
(0x16ea5cdba759e2, (-35));
(0x10342515ddf406, (-35));
(0x15b2a608f302c7, (-36));
(0x1b7222ed9f4c89, (-37));
(0x10595a5295ae08, (-37));
(0x12475de0bf5afa, (-38));
(0x1317706ad3cc17, (-39));
(0x1285832dc1b0ef, (-40));
(0x1090f008a98844, (-41));
(0x1b0d6c123b6191, (-43));
(0x13e3abf005c4f2, (-44));
(0x19cfd35eafe2ff, (-46));
(0x1ca2b9714180f6, (-48));
(0x199ccc999fff00, (-50));
(0x10000000000000, (-52))]];
   [[(0x10000000000000, (-52))];
[(0x1ce00000000000, (-45));
(0x157e82ecdabe8c, (-48));
(0x10000000000000, (-52))];
[(0x114b8000000000, (-39));
(0x19cddd3323abb4, (-42));
(0x1ccffb8eb6e94b, (-45));
(0x1572969b8b5cd8, (-48));
(0x10000000000000, (-52))];
[(0x106e2000000000, (-35));
(0x127746c1e4d9d1, (-37));
(0x1138353d78b9c3, (-39));
(0x19a2d422f595d1, (-42));
(0x1c9fee1d0b2e27, (-45));
(0x155aaa002a9d59, (-48));
(0x10000000000000, (-52))];
[(0x1080e700000000, (-32));
(0x18e53de71352a2, (-34));
(0x10525c8af43afa, (-35));
(0x12439c51b749b8, (-37));
(0x10fe94f49f41bd, (-39));
(0x194d094ed839cb, (-42));
(0x1c4fd74f916266, (-45));
(0x1536948017480f, (-48));
(0x10000000000000, (-52))];
[(0x14433dc0000000, (-30));
(0x1346a3583b1253, (-31));
(0x105b2de31418bf, (-32));
(0x1882a4ef4684fa, (-34));
(0x1fff97208c26bb, (-36));
(0x11dd498b4df5dc, (-37));
(0x109f5f2187f985, (-39));
(0x18cd0c13810812, (-42));
(0x1bdfb6871569eb, (-45));
(0x1506177f5491ba, (-48));
(0x10000000000000, (-52))];
[(0x10941b40000000, (-28));
(0x1324ac08048b6e, (-29));
(0x140839ef47aa31, (-30));
(0x12e2f0294774b3, (-31));
(0x1fd70083fffeee, (-33));
(0x17c0adc9842b37, (-34));
(0x1ef12a7a602cf4, (-36));
(0x11464fd8601f6d, (-37));
(0x101bd3bd37a66a, (-39));
(0x1823b56f65137c, (-42));
(0x1b4f8ad56cf64e, (-45));
(0x14c8dc2e42397f, (-48));
(0x10000000000000, (-52))];
[(0x13210bc0000000, (-27));
(0x1a22a3701aad5c, (-28));
(0x1058bed1dca940, (-28));
(0x12a92727f5aa47, (-29));
(0x135a56591e0ca1, (-30));
(0x1220297a0abff4, (-31));
(0x1e6c8d56f0136d, (-33));
(0x16a5b32685a7a9, (-34));
(0x1d80890e7c31de, (-36));
(0x1081aa53368380, (-37));
(0x1eeb6579c52d94, (-40));
(0x17522a73a0c20f, (-42));
(0x1a9f52ebc63a72, (-45));
(0x147e7054af0989, (-48));
(0x10000000000000, (-52))];
[(0x102e15ac000000, (-26));
(0x19b22ec671e6ba, (-27));
(0x12cebc9b40a4b7, (-27));
(0x19562cf6028825, (-28));
(0x1f5569ea989b9e, (-29));
(0x11b998ca5e2932, (-29));
(0x1242d56d47f9a2, (-30));
(0x11074e0e0b770d, (-31));
(0x1c8546a044a76e, (-33));
(0x153afa400e4b48, (-34));
(0x1bb76656f0c8ce, (-36));
(0x1f268a7826f249, (-38));
(0x1d5e78215d3ecb, (-40));
(0x1659dfb2994a55, (-42));
(0x19cf0cffdef7f7, (-45));
(0x142641cf569571, (-48));
(0x10000000000000, (-52))];
[(0x149f20a4000000, (-26));
(0x12cbbe02325a50, (-26));
(0x1fb74b31f64afb, (-27));
(0x18c2e53de3515a, (-27));
(0x11deb429b692f5, (-27));
(0x17ccb37b744310, (-28));
(0x1d2b87a0878beb, (-29));
(0x106463b4618569, (-29));
(0x10d077fc654399, (-30));
(0x1f4a7af593abf0, (-32));
(0x1a34434d7fe45c, (-33));
(0x138c63d257ad69, (-34));
(0x19a1db5a1834a7, (-36));
(0x1cffe4bff3326f, (-38));
(0x1b965f436f85a5, (-40));
(0x153c9dd929e943, (-42));
(0x18deb6a3dd4ebf, (-45));
(0x13bf984cb56c77, (-48));
(0x10000000000000, (-52))];
[(0x142ffcec000000, (-26));
(0x14eef43224dcc4, (-26));
(0x1423dcc5bf4150, (-26));
(0x11fddc5bb9efd8, (-26));
(0x1dd943037f72e4, (-27));
(0x16fa3efd7228dc, (-27));
(0x1064d94393fbb5, (-27));
(0x15a38ec1c37b46, (-28));
(0x1a58c09e8ffe22, (-29));
(0x1d7b6ab83ebe49, (-30));
(0x1e2d070730a44a, (-31));
(0x1c14041d2f90a7, (-32));
(0x179092d6f673ff, (-33));
(0x11a804ad2a6cc9, (-34));
(0x174e1ea6695023, (-36));
(0x1a9ab47cd19dbd, (-38));
(0x19999a9dccc7a2, (-40));
(0x13fc87b2f1086c, (-42));
(0x17ce4c89a4b713, (-45));
(0x13498c97b10540, (-48));
(0x10000000000000, (-52))];
[(0x1ec30780000000, (-27));
(0x1209252b32901c, (-26));
(0x13a324f48c0f71, (-26));
(0x13e32fded3ec17, (-26));
(0x12c0c188b46466, (-26));
(0x10788d643bd145, (-26));
(0x1af18b7e8aaa8b, (-27));
(0x148152f598b3d5, (-27));
(0x1cffaa4fb8a792, (-28));
(0x1303079a5cd963, (-28));
(0x170c16511cde9e, (-29));
(0x19bbecf0b2ff19, (-30));
(0x1a56f4eefc6c22, (-31));
(0x188fd6f0c446f6, (-32));
(0x14b430f460afe0, (-33));
(0x1f3b4f23d2ac71, (-35));
(0x14cc2c4bfb2377, (-36));
(0x1803d351f36b35, (-38));
(0x176fa9cf98232e, (-40));
(0x129c21f5fdd080, (-42));
(0x169dca256b860e, (-45));
(0x12c2fc595456a6, (-48));
(0x10000000000000, (-52))];
[(0x1263e5e0000000, (-27));
(0x184bdebc68de9a, (-27));
(0x1dc8f6de4b06c3, (-27));
(0x10fcb221a7441e, (-26));
(0x12104cdbf6fc25, (-26));
(0x11ee00daf409d6, (-26));
(0x109f6a5564f5ad, (-26));
(0x1cca987a93c867, (-27));
(0x1747eb504217e2, (-27));
(0x118f40a7e8f580, (-27));
(0x18ab48df10d4d4, (-28));
(0x101a52c4ac5a41, (-28));
(0x137a7bd8f71137, (-29));
(0x15bfd034db7d3a, (-30));
(0x164f36c546dfa3, (-31));
(0x14e50abd41ba19, (-32));
(0x11bad006c1f996, (-33));
(0x1afc7524828cbc, (-35));
(0x122d5dd244ecf1, (-36));
(0x154976ff7fd2b0, (-38));
(0x15210c481d5f02, (-40));
(0x111e5d5a42497e, (-42));
(0x154d2919e68635, (-45));
(0x122a788fc76de5, (-48));
(0x10000000000000, (-52))];
[(0x1150aac0000000, (-28));
(0x19bc5dc942f070, (-28));
(0x11b5786b875827, (-27));
(0x16a73c1c76a904, (-27));
(0x1b038e29559859, (-27));
(0x1e180547d9ab7c, (-27));
(0x1f5d3a02afd665, (-27));
(0x1e9bb90b42bbc2, (-27));
(0x1bfaee714f3dd1, (-27));
(0x17f4b4cd271cec, (-27));
(0x1332acde8dc297, (-27));
(0x1cc4d2ff0203a9, (-28));
(0x141eccecab4b2a, (-28));
(0x1a35d57c9e0c10, (-29));
(0x1fb469b2fe66ed, (-30));
(0x11bd280b87d1b0, (-30));
(0x1246803de4178e, (-31));
(0x113aeed886769e, (-32));
(0x1d810a6cef9e18, (-34));
(0x16b6555db067b5, (-35));
(0x1f07e44ed70711, (-37));
(0x127afc1a9f0038, (-38));
(0x12b741291321de, (-40));
(0x1f0d477a7a3b8a, (-43));
(0x13dc6045fca993, (-45));
(0x117e2bca46bab9, (-48));
(0x10000000000000, (-52))];
[(0x19a6ea00000000, (-30));
(0x15764645396883, (-29));
(0x10902bde340e4c, (-28));
(0x17b4c1ed9bea5d, (-28));
(0x1f96a5866ca476, (-28));
(0x13a746f1cb4b79, (-27));
(0x16e3ada3715073, (-27));
(0x18fdd7451b122a, (-27));
(0x199bd608a26743, (-27));
(0x18a45b2fda042e, (-27));
(0x164519a6965e64, (-27));
(0x12e58b3f27b90f, (-27));
(0x1e165148cb8c78, (-28));
(0x1671f55ff3d40c, (-28));
(0x1f53c9153cf419, (-29));
(0x1467993ff4ef51, (-29));
(0x18bc5710566552, (-30));
(0x1bccef94abfb1d, (-31));
(0x1cd4e71294b319, (-32));
(0x1b6d7987a04be3, (-33));
(0x17c0c6862754a6, (-34));
(0x128b6225ec0493, (-35));
(0x19c50b07ca6a7d, (-37));
(0x1f514d62d6f51e, (-39));
(0x103cc710ab26d4, (-40));
(0x1bb1d2dd8df3ff, (-43));
(0x124b622600bc19, (-45));
(0x10bbb307acafda, (-48));
(0x10000000000000, (-52))];
[(0x1db89000000000, (-32));
(0x1c156a7128cf89, (-31));
(0x1855ebf3ee161e, (-30));
(0x1379f90d4b9229, (-29));
(0x1cf2a827f8c564, (-29));
(0x140edc84259df2, (-28));
(0x19ffc107f2aa8f, (-28));
(0x1f98a72770b664, (-28));
(0x12087b0ff31bd2, (-27));
(0x135bbf0a3f1633, (-27));
(0x138f1a3dc77e60, (-27));
(0x129b45860046ab, (-27));
(0x10aa500f5346a9, (-27));
(0x1c1861e1eefb53, (-28));
(0x1644e4369e677b, (-28));
(0x1093abed4f2994, (-28));
(0x1723010d86a75b, (-29));
(0x1e348590c02b8b, (-30));
(0x1263691ce46efc, (-30));
(0x14cdd3beaa61b7, (-31));
(0x15c51f6f0f04df, (-32));
(0x14f2bd6a50a289, (-33));
(0x126625fff2d8dd, (-34));
(0x1d3857ff7b7d0a, (-36));
(0x14b6f26f4dc51b, (-37));
(0x19c6ae0bd3d82e, (-39));
(0x1b7a37644dcea2, (-41));
(0x183388ac0d3d2a, (-43));
(0x109a19e69f4bee, (-45));
(0x1fbfbf7ebc755e, (-49));
(0x10000000000000, (-52))];
[(0x1a9ae400000000, (-34));
(0x1c91df6e2e89c6, (-33));
(0x1be55354bc9101, (-32));
(0x1901a32df75eb8, (-31));
(0x14ba6153163d85, (-30));
(0x1ff2fc36f9dc31, (-30));
(0x16fd3565d322cd, (-29));
(0x1efd7ae93300eb, (-29));
(0x139d979f2f5096, (-28));
(0x175d37f38a4002, (-28));
(0x1a38a1e3366fe6, (-28));
(0x1bc128283df7f8, (-28));
(0x1bb91d63dcc42d, (-28));
(0x1a2339588b4fe9, (-28));
(0x17418f68dfe1df, (-28));
(0x13848d18953779, (-28));
(0x1edfa90b3b7b3c, (-29));
(0x16fb62898d5898, (-29));
(0x1012b6aa7cf493, (-29));
(0x15134b954ef07f, (-30));
(0x19d4c0ca0ecbb2, (-31));
(0x1d7ce0cca7063e, (-32));
(0x1f364d70685f9a, (-33));
(0x1e75bc9e3714de, (-34));
(0x1b35e9c8e51238, (-35));
(0x160bb94053e17b, (-36));
(0x100096913b8bde, (-37));
(0x14785f88505af6, (-39));
(0x16897602c967ee, (-41));
(0x149d171144bd4e, (-43));
(0x1d90cb7d88ecb4, (-46));
(0x1dcca0d0cbf408, (-49));
(0x10000000000000, (-52))];
[(0x12057000000000, (-36));
(0x1639cbffee5ce1, (-35));
(0x189cec765cc2af, (-34));
(0x18cebbefea38e7, (-33));
(0x16fab2e5d5998f, (-32));
(0x13b45f6424a83c, (-31));
(0x1f74d2d9eeec33, (-31));
(0x1779098537dc24, (-30));
(0x106dfad91c92b8, (-29));
(0x15a16e086c3878, (-29));
(0x1ad673602050c4, (-29));
(0x1f6dd915e32f2c, (-29));
(0x1163b82ff9df8e, (-28));
(0x12326d6d6e507e, (-28));
(0x12039b9f19563b, (-28));
(0x10df2aa1570c52, (-28));
(0x1de485d2cf31e6, (-29));
(0x19087f15e7f621, (-29));
(0x13cc8dd4c513c0, (-29));
(0x1d8a5254912002, (-30));
(0x14c01284ac0075, (-30));
(0x1b6393e8193019, (-31));
(0x10ef967181d30b, (-31));
(0x138e4e2fc08f21, (-32));
(0x14fe381dae53a8, (-33));
(0x14d65c4415dc70, (-34));
(0x12fe15c9cc1e0c, (-35));
(0x1f82cbbbaa623b, (-37));
(0x1783769939004a, (-38));
(0x1f10a734539de0, (-40));
(0x11c23aad4a9661, (-41));
(0x10fb06cd4a13c8, (-43));
(0x19ac16200f654d, (-46));
(0x1b916ed68964ec, (-49));
(0x10000000000000, (-52))];
[(0x11d98000000000, (-39));
(0x19b959b31d2816, (-38));
(0x1054536db67f48, (-36));
(0x12a19b54ac6e05, (-35));
(0x135d8a4d3ad6df, (-34));
(0x128450ad2aa5eb, (-33));
(0x1068479338f5d0, (-32));
(0x1b188890113f6b, (-32));
(0x14f0eafab91132, (-31));
(0x1e669e3837b3ec, (-31));
(0x14c830c3453088, (-30));
(0x1ad0f3be713112, (-30));
(0x105b312a2878fc, (-29));
(0x12e2f3f22a2f35, (-29));
(0x14a96e515677be, (-29));
(0x156d9d9a3d4340, (-29));
(0x1512a323767194, (-29));
(0x13a686726dab28, (-29));
(0x115ec87559c8e4, (-29));
(0x1d17ca6045468c, (-30));
(0x170f55dd5feea0, (-30));
(0x11472f2455d310, (-30));
(0x186f53b7021566, (-31));
(0x10457f760cb674, (-31));
(0x145aba5698c412, (-32));
(0x17d62dfe9d80f3, (-33));
(0x1a069d30837c88, (-34));
(0x1a5b7dd36b90a5, (-35));
(0x189923f6625b63, (-36));
(0x14fa382d78b53a, (-37));
(0x102ab121345f10, (-38));
(0x162e3d0baa3029, (-40));
(0x1a82cb05ca63c2, (-42));
(0x1ab871c62a3518, (-44));
(0x158534f36e5e9a, (-46));
(0x18fae0c15ad389, (-49));
(0x10000000000000, (-52))];
[(0x18600000000000, (-43));
(0x15237fb5d2b9bc, (-41));
(0x1f4f6ee8b700fa, (-40));
(0x1471817c5e2853, (-38));
(0x1802df99f6e2e9, (-37));
(0x19b6aec65f52ef, (-36));
(0x195af19f071592, (-35));
(0x173100402964ae, (-34));
(0x13c9ba5045baff, (-33));
(0x1fa4203e2875ee, (-33));
(0x17c997f08a1e6b, (-32));
(0x10dd050ec974bd, (-31));
(0x1698c0a4d5df2e, (-31));
(0x1caaf1491fb2ec, (-31));
(0x113db01e151f7b, (-30));
(0x13ae81656c8de1, (-30));
(0x1556e6990957a3, (-30));
(0x15fc1f75a94935, (-30));
(0x1586aa0b847e74, (-30));
(0x14079608310afd, (-30));
(0x11b494baca1191, (-30));
(0x1db7f9f50f55cf, (-31));
(0x17a8b1bfee881f, (-31));
(0x11d83eb4b457ae, (-31));
(0x1976ad7742a4a6, (-32));
(0x1126d1fffd15b7, (-32));
(0x15c2809ebafcd7, (-33));
(0x19eb06832e0f7b, (-34));
(0x1cdf81b134e399, (-35));
(0x1df0a2a36b1a41, (-36));
(0x1cb979cf5cf6ac, (-37));
(0x194cba748a3f4a, (-38));
(0x143f7fb28f77e6, (-39));
(0x1d0a8f2e5996e4, (-41));
(0x124b5507978850, (-42));
(0x13a531dc38a7e7, (-44));
(0x111a460cc58e30, (-46));
(0x15e8add236a58e, (-49));
(0x10000000000000, (-52))];
[(0x14800000000000, (-47));
(0x16a3724d10762c, (-45));
(0x14263b7515f523, (-43));
(0x1ea6cb0070dd8f, (-42));
(0x1491b65920f218, (-40));
(0x18d9680cfe4c66, (-39));
(0x1b64ca9baad304, (-38));
(0x1bd49b0986509e, (-37));
(0x1a403a92e3389f, (-36));
(0x171efb93df39c4, (-35));
(0x1319fbe7feb943, (-34));
(0x1db6040bf6d6bb, (-34));
(0x15d09c66427523, (-33));
(0x1e5077eb86ea17, (-33));
(0x13f812ba6e3419, (-32));
(0x18fad2b66761b3, (-32));
(0x1db4449526f591, (-32));
(0x10cd9f9eefe7b1, (-31));
(0x12192a5d687790, (-31));
(0x12907e770f6c52, (-31));
(0x12233a068d6d38, (-31));
(0x10e072f7df79bf, (-31));
(0x1de6cb8f3229b6, (-32));
(0x19346f6e67db8a, (-32));
(0x1432e6f4c89281, (-32));
(0x1ebe8d2f44297a, (-33));
(0x163014cf251d71, (-33));
(0x1e5077eb86ea17, (-34));
(0x138ee47efdca1f, (-34));
(0x17c4d009924562, (-35));
(0x1b1c9f59cca3dc, (-36));
(0x1ce6ba78d70835, (-37));
(0x1ca328a03db222, (-38));
(0x1a3182dbc9b54a, (-39));
(0x15ea3bafbbdc03, (-40));
(0x1090f008a98844, (-41));
(0x163ca9751cb2b3, (-43));
(0x19cfd35eafe2ff, (-45));
(0x18cc97f2912db5, (-47));
(0x121c5b70d9f823, (-49));
(0x10000000000000, (-52))];
[(0x10000000000000, (-52));
(0x19ec474a261263, (-50));
(0x1d57c1d6d9269e, (-48));
(0x1ac943c75d7c3e, (-46));
(0x14e8f359c00303, (-44));
(0x1cd2887efaf2db, (-43));
(0x11e4bc76a50b96, (-41));
(0x144a110dac892d, (-40));
(0x153815bb568557, (-39));
(0x149f09a10a36fd, (-38));
(0x12baec8d3a4b5d, (-37));
(0x1ff23ff9bd4f57, (-37));
(0x19ac594cad2389, (-36));
(0x13800eaabf683c, (-35));
(0x1c10cc33a7956c, (-35));
(0x132c26b4af68d9, (-34));
(0x18e7e01c305268, (-34));
(0x1ecd01935aa3a3, (-34));
(0x122648d0b6fd36, (-33));
(0x1465f90f9101e3, (-33));
(0x15dff12aa15ee6, (-33));
(0x1663b932a8881d, (-33));
(0x15dff12aa15ee6, (-33));
(0x1465f90f9101e3, (-33));
(0x122648d0b6fd36, (-33));
(0x1ecd01935aa3a3, (-34));
(0x18e7e01c305268, (-34));
(0x132c26b4af68d9, (-34));
(0x1c10cc33a7956c, (-35));
(0x13800eaabf683c, (-35));
(0x19ac594cad2389, (-36));
(0x1ff23ff9bd4f57, (-37));
(0x12baec8d3a4b5d, (-37));
(0x149f09a10a36fd, (-38));
(0x153815bb568557, (-39));
(0x144a110dac892d, (-40));
(0x11e4bc76a50b96, (-41));
(0x1cd2887efaf2db, (-43));
(0x14e8f359c00303, (-44));
(0x1ac943c75d7c3e, (-46));
(0x1d57c1d6d9269e, (-48));
(0x19ec474a261263, (-50));
(0x10000000000000, (-52))]];
   [[(0x16000000000000, (-48));
(0x10000000000000, (-52))];
[(0x1bac0000000000, (-42));
(0x1e37fef0e8f30b, (-45));
(0x15fa2dc67adf4d, (-48));
(0x10000000000000, (-52))];
[(0x14c10000000000, (-37));
(0x12f2154fa8016a, (-39));
(0x1b95f73a366e3f, (-42));
(0x1e17f66e0cd55c, (-45));
(0x15e8add236a58e, (-48));
(0x10000000000000, (-52))];
[(0x1d56f000000000, (-34));
(0x12d8c19ac9cc27, (-35));
(0x14a541749325d5, (-37));
(0x12c9bfcc7a5d1b, (-39));
(0x1b53ffb50f1310, (-42));
(0x1dd7e5318b6a95, (-45));
(0x15cb64017d6176, (-48));
(0x10000000000000, (-52))];
[(0x17d6a300000000, (-31));
(0x13d5b35fa36000, (-32));
(0x1d1f6369f5fce8, (-34));
(0x129c10aa01910f, (-35));
(0x14528a0a91e0f4, (-37));
(0x127994c3ca6f69, (-39));
(0x1ae6823049f641, (-42));
(0x1d77caca54fbdb, (-45));
(0x15a22073490376, (-48));
(0x10000000000000, (-52))];
[(0x18de28e0000000, (-29));
(0x19893b43c55cdf, (-30));
(0x179bac339951e0, (-31));
(0x137f72eed4bee7, (-32));
(0x1c7a7a536b0acb, (-34));
(0x122431f7eacf0c, (-35));
(0x13ca650e7484c8, (-37));
(0x12029430b505d0, (-39));
(0x1a4e2e74791471, (-42));
(0x1cf7a685ac7dc8, (-45));
(0x156c9df5e1f2da, (-48));
(0x10000000000000, (-52))];
[(0x11da9380000000, (-27));
(0x15ee6cd31745a3, (-28));
(0x18916a03840d52, (-29));
(0x18fc059e627d7b, (-30));
(0x16ed646c36db63, (-31));
(0x12d632a483cdf5, (-32));
(0x1b6d5cf7538ee9, (-34));
(0x117423e3352c66, (-35));
(0x130f60c6d856f9, (-37));
(0x11663e0b4b059b, (-39));
(0x198bfd2e808c93, (-42));
(0x1c577762e992e8, (-45));
(0x152a7fa9d2f8e9, (-48));
(0x10000000000000, (-52))];
[(0x127dcfa0000000, (-26));
(0x1a9910e58b67ab, (-27));
(0x1197c619738ea1, (-27));
(0x1559ac122f38e5, (-28));
(0x17af9e6bb4aa68, (-29));
(0x17e8cb48efb101, (-30));
(0x15d37eb70cd91b, (-31));
(0x11e0511cdff6cc, (-32));
(0x1a0075fb744fb4, (-34));
(0x10904ff935429c, (-35));
(0x1225078d5bd849, (-37));
(0x10a69247bb1b95, (-39));
(0x18a132a6ac72fd, (-42));
(0x1b973c00c28ed2, (-45));
(0x14db4da6bac4aa, (-48));
(0x10000000000000, (-52))];
[(0x1c8d8fa8000000, (-26));
(0x17af641d982d1c, (-26));
(0x122b7a44639c3b, (-26));
(0x19c0d98d00f7fe, (-27));
(0x10d430b53a81f4, (-27));
(0x1439cce0980d90, (-28));
(0x1645c5401ab3ae, (-29));
(0x165d7a8557c452, (-30));
(0x145a5dadf21927, (-31));
(0x10a706d4232bda, (-32));
(0x183f2e882d6ce8, (-34));
(0x1efce5e9e25e2a, (-36));
(0x110fd5ffcc4e45, (-37));
(0x1f8c21a9f66830, (-40));
(0x178f627418ae62, (-42));
(0x1ab6f2816d8677, (-45));
(0x147e7054af0989, (-48));
(0x10000000000000, (-52))];
[(0x10d2a81a000000, (-25));
(0x1fd8225cf93e00, (-26));
(0x1bf819ff4c588a, (-26));
(0x16cc1c2e27fc3a, (-26));
(0x113baf3e159ea5, (-26));
(0x182198106084a6, (-27));
(0x1f3ba9a97e8d40, (-28));
(0x12a1429ab68507, (-28));
(0x146876775f60f0, (-29));
(0x146dde4980bdf2, (-30));
(0x12926cfd00acad, (-31));
(0x1e6c04de77eb24, (-33));
(0x1637909f0fb9ac, (-34));
(0x1c8af97b48ef1f, (-36));
(0x1faa5c4472efd0, (-38));
(0x1d8f73355aaf44, (-40));
(0x1658745be84aee, (-42));
(0x19b698612eae78, (-45));
(0x14132a04b5c968, (-48));
(0x10000000000000, (-52))];
[(0x1ec30780000000, (-26));
(0x107ba4fec97501, (-25));
(0x106be8c7f7cdf3, (-25));
(0x1e72ee6647d3c8, (-26));
(0x1a474a4db12413, (-26));
(0x151b3021cf3125, (-26));
(0x1f86600072b1ee, (-27));
(0x15dbcc5a1aa4f1, (-27));
(0x1c15144d8241f3, (-28));
(0x10a9c187e5f135, (-28));
(0x12325de87dc7fb, (-29));
(0x12325de87dc7fb, (-30));
(0x108f42b6c1885b, (-31));
(0x1b35d0e3bf67a7, (-33));
(0x13f9d120ec8dd4, (-34));
(0x19dad0c8f318aa, (-36));
(0x1cf68e7660f753, (-38));
(0x1b5e18eb90f8fc, (-40));
(0x14feaa9fd3f7c6, (-42));
(0x18962a37fcf0e2, (-45));
(0x13988e1409212e, (-48));
(0x10000000000000, (-52))];
[(0x16117a40000000, (-26));
(0x1aa3f9b58f7067, (-26));
(0x1de8ab4a1bdf31, (-26));
(0x1f4985e010fad9, (-26));
(0x1e887e78d7baf7, (-26));
(0x1bd0abff5c6cb0, (-26));
(0x17a78fedff3fb9, (-26));
(0x12c50a5c377e59, (-26));
(0x1bc39e4df41c13, (-27));
(0x131bcc67bfa4a0, (-27));
(0x186bd016a0a93d, (-28));
(0x1ce42693c1fff3, (-29));
(0x1f84872cd3a2da, (-30));
(0x1f8ce0501d79a6, (-31));
(0x1ccd253f9eff8d, (-32));
(0x17c974c3aa5c3e, (-33));
(0x1197c369c43db8, (-34));
(0x16fe18420f3674, (-36));
(0x1a1234408b1e49, (-38));
(0x190012665fa0fe, (-40));
(0x1384aa1bd93c79, (-42));
(0x1755a359b335aa, (-45));
(0x130d747fbcb4b5, (-48));
(0x10000000000000, (-52))];
[(0x1902bdc0000000, (-27));
(0x10f477aa6e5bcf, (-26));
(0x155b922ddfc4ea, (-26));
(0x19115d1e2c4a6a, (-26));
(0x1b78c6c6a71d4b, (-26));
(0x1c26739069101f, (-26));
(0x1afe753e4c3bb4, (-26));
(0x183b47d394d4a4, (-26));
(0x145bcc533399cc, (-26));
(0x1fff201d96eefc, (-27));
(0x177d5a916aab33, (-27));
(0x10150fd80ca745, (-27));
(0x147d51874b35cf, (-28));
(0x18370342cd3f97, (-29));
(0x1a718e6a538a70, (-30));
(0x1a8db44b5730d5, (-31));
(0x185e00528574be, (-32));
(0x144654ae3edec2, (-33));
(0x1e4871d2408a46, (-35));
(0x1407c2979849fb, (-36));
(0x170c9320b42f7c, (-38));
(0x167e5f0d5a8b62, (-40));
(0x11ed84bbf97657, (-42));
(0x15f4fd3e9f2365, (-45));
(0x12706821902e9a, (-48));
(0x10000000000000, (-52))];
[(0x16720cc0000000, (-28));
(0x1112ab29203e74, (-27));
(0x1812da375b4465, (-27));
(0x1f96a5866ca476, (-27));
(0x13580a1a54b4c9, (-26));
(0x16299bed8ced08, (-26));
(0x17ca9026141b9f, (-26));
(0x17f46c512ebb6a, (-26));
(0x16a2985d76b4c1, (-26));
(0x1412e6fb591800, (-26));
(0x10b3d33cf0c6cb, (-26));
(0x1a0e6713447c81, (-27));
(0x13075f921a8ede, (-27));
(0x19f9a7a3392410, (-28));
(0x1087993952e867, (-28));
(0x138e2786f7e0bc, (-29));
(0x156bf7a69b778f, (-30));
(0x159fad4def8653, (-31));
(0x13fdbc3412e5e0, (-32));
(0x10cbc1f0c2ef7e, (-33));
(0x19649f57a59ccb, (-35));
(0x110b88aa5d5e46, (-36));
(0x13f60c2fadba08, (-38));
(0x13e2fdf6a588ae, (-40));
(0x103cc710ab26d4, (-42));
(0x14742e8b6df2e9, (-45));
(0x11bf8c9d2ed1a1, (-48));
(0x10000000000000, (-52))];
[(0x1fd80800000000, (-30));
(0x1b3543a2741c60, (-29));
(0x15764645396883, (-28));
(0x1f6d28d4eb49f1, (-28));
(0x157165d1a314fa, (-27));
(0x1b5b3dca8a9f2d, (-27));
(0x105a468eaa6176, (-26));
(0x125a31d67d53b5, (-26));
(0x135bbf0a3f1633, (-26));
(0x1334e08679cd72, (-26));
(0x11ee00daf409d6, (-26));
(0x1f7e92be9789c4, (-27));
(0x1a02da26648418, (-27));
(0x142edf257bbac8, (-27));
(0x1d6339c3a37695, (-28));
(0x140978d6d82df1, (-28));
(0x19872c74374f68, (-29));
(0x1e4b8045000824, (-30));
(0x10ae295933fd11, (-30));
(0x10f68ad399dbe4, (-31));
(0x1fabb35d89c633, (-33));
(0x1aeef388b0d0f9, (-34));
(0x14a966db6c9390, (-35));
(0x1c3ab2d903492f, (-37));
(0x10dfd9996de866, (-38));
(0x1138edae53463f, (-40));
(0x1ced144f7c69b7, (-43));
(0x12d32968a245d6, (-45));
(0x10f876ccdf6cd9, (-48));
(0x10000000000000, (-52))];
[(0x11bc9800000000, (-31));
(0x111526a13b874f, (-30));
(0x1e32b62ddce861, (-30));
(0x18abdb0f750e3e, (-29));
(0x12bb5aeaac0964, (-28));
(0x1a8ba74d301141, (-28));
(0x119c429895247d, (-27));
(0x15ee4f931d5ce5, (-27));
(0x19aecec0b9e163, (-27));
(0x1c5278bd1f6cf2, (-27));
(0x1d70282a983236, (-27));
(0x1cdae94a6e3016, (-27));
(0x1aad33b0101393, (-27));
(0x17418f68dfe1df, (-27));
(0x131b594c80a151, (-27));
(0x1d8f2dbbe326c6, (-28));
(0x157f6714481c33, (-28));
(0x1d58679d3f8ef7, (-29));
(0x12c07fc6e71d56, (-29));
(0x165ecfe9a66f0b, (-30));
(0x18d153e14e60cf, (-31));
(0x197c0dfec88483, (-32));
(0x1814a6f75ebd18, (-33));
(0x14c84dd9bf053e, (-34));
(0x1039ab0a980923, (-35));
(0x16a17355b00e4c, (-37));
(0x1bb77fb2a56be7, (-39));
(0x1d185793b21594, (-41));
(0x193f16cba28708, (-43));
(0x1111d883fb1b9a, (-45));
(0x1017ee1acdc962, (-48));
(0x10000000000000, (-52))];
[(0x1ea2d800000000, (-34));
(0x10bd1764c3a6c7, (-32));
(0x10a433b40eddba, (-31));
(0x1e66143d16ac14, (-31));
(0x19b10ea659296a, (-30));
(0x14340506499581, (-29));
(0x1db0e5cabc6c80, (-29));
(0x14746718644ea4, (-28));
(0x1a7df05317331b, (-28));
(0x10288f2049cffb, (-27));
(0x1297fce49bbd8b, (-27));
(0x14346e3d6d3f6a, (-27));
(0x14bf6cabfc08c4, (-27));
(0x1423ef32ef9b79, (-27));
(0x127b68ed3dd81e, (-27));
(0x1007354c791881, (-27));
(0x1a4149aa7419c1, (-28));
(0x1449b8ec70fca0, (-28));
(0x1d8a5254912002, (-29));
(0x143991523fa0e5, (-29));
(0x19fbc447613d25, (-30));
(0x1f3a6dbc3b9970, (-31));
(0x117dc693a9854e, (-31));
(0x122e35d9d6db77, (-32));
(0x116f0bcee06920, (-33));
(0x1e9fe06d80f767, (-35));
(0x1868835ff88e55, (-36));
(0x1170274815d1ce, (-37));
(0x15f75ffdb94a18, (-39));
(0x17d368124094a2, (-41));
(0x157a9a1cf197bf, (-43));
(0x1e60329137e24d, (-46));
(0x1e3307cc56cf5b, (-49));
(0x10000000000000, (-52))];
[(0x1414b000000000, (-36));
(0x192a509b2b49f8, (-35));
(0x1c5518a891b339, (-34));
(0x1d0c4f73d8424e, (-33));
(0x1b630548f93f03, (-32));
(0x17eae83501c0fa, (-31));
(0x1374eb3aedecb6, (-30));
(0x1d9d7b97c07ec0, (-30));
(0x15287911a181cc, (-29));
(0x1c74f888f3f500, (-29));
(0x120d1cc1341c1b, (-28));
(0x15a32269d4ea51, (-28));
(0x1888c9bf3cb57a, (-28));
(0x1a56ba565b6482, (-28));
(0x1ac90500cc9411, (-28));
(0x19cf0de7b8b8ed, (-28));
(0x178f6347beff5d, (-28));
(0x145e50b863e5a7, (-28));
(0x10aa420b3a7614, (-28));
(0x19c8212fb8de34, (-29));
(0x12d40d9d0ce778, (-29));
(0x19eac6b680bc99, (-30));
(0x10c5b26b63cefc, (-30));
(0x145aba5698c412, (-31));
(0x171468f96ba49a, (-32));
(0x18584e0395ba04, (-33));
(0x17c21b4d94e386, (-34));
(0x154d7bcedf8ca6, (-35));
(0x1164c0301f0b82, (-36));
(0x198fd8b38527f9, (-38));
(0x10a2adc8bfa41e, (-39));
(0x12befcc5ccd4e2, (-41));
(0x11ac87593197d7, (-43));
(0x1a5b5f7144630d, (-46));
(0x1bedb0defaf661, (-49));
(0x10000000000000, (-52))];
[(0x134c0000000000, (-39));
(0x1c39038de80951, (-38));
(0x12308bc1339751, (-36));
(0x1514c70ba71d13, (-35));
(0x1644c53c966786, (-34));
(0x15a6b2d03cec2e, (-33));
(0x1384bb1bc0d4c9, (-32));
(0x1068479338f5d0, (-31));
(0x19d5b9a2e7f18b, (-31));
(0x131dd37ae31c95, (-30));
(0x1aa9cebcc42aa1, (-30));
(0x119061b1d5a4e9, (-29));
(0x15e535be7f8e65, (-29));
(0x19dc882d1faf39, (-29));
(0x1cf87aaddb9cf0, (-29));
(0x1ecd04a0d53e1d, (-29));
(0x1f175e22ee2760, (-29));
(0x1dcd2b4f2edd80, (-29));
(0x1b1ec8cb1ac12e, (-29));
(0x176c0a80dceca8, (-29));
(0x132eed7a3bf1e3, (-29));
(0x1dc52c599aacc9, (-30));
(0x15daef3fcfda27, (-30));
(0x1e4ec73bca2e07, (-31));
(0x13ce1523de800f, (-31));
(0x185402d3aa2c70, (-32));
(0x1bfea585604a87, (-33));
(0x1e0d52f1828d5e, (-34));
(0x1df0a2a36b1a41, (-35));
(0x1b806ac630b6cd, (-36));
(0x17186ac1b887ce, (-37));
(0x11890aaa0bb2d8, (-38));
(0x17b64ad0e4cf30, (-40));
(0x1bf1e87430319a, (-42));
(0x1bc85afe8dd2a1, (-44));
(0x161453b3496d44, (-46));
(0x194c583ada5b52, (-49));
(0x10000000000000, (-52))];
[(0x19a00000000000, (-43));
(0x16871438406fb8, (-41));
(0x10eb4ffc6c96f7, (-39));
(0x166a2d4c1cd319, (-38));
(0x1ab85c65c6a332, (-37));
(0x1d0e304631853c, (-36));
(0x1d1b1745658034, (-35));
(0x1b0f0da4d8f87e, (-34));
(0x177ac1600d3f77, (-33));
(0x1319fbe7feb943, (-32));
(0x1d3e3a81e9daee, (-32));
(0x151f46babd5e5d, (-31));
(0x1cdbbef0282d3e, (-31));
(0x12ade815243dce, (-30));
(0x16f20524c817f2, (-30));
(0x1ac664fb2675f1, (-30));
(0x1db4449526f591, (-30));
(0x1f58e0c63a9dbb, (-30));
(0x1f7a3ee294c1c9, (-30));
(0x1e13eb9a9de27c, (-30));
(0x1b57ed7549b69f, (-30));
(0x17a3a59d016c17, (-30));
(0x136bef6faf726c, (-30));
(0x1e4c5a6f2cdbc2, (-31));
(0x166899d48e7730, (-31));
(0x1f60d915daee6c, (-32));
(0x14c13ac22844ac, (-32));
(0x19df7f0c4754b3, (-33));
(0x1e4ca504d0165f, (-34));
(0x109a3ef238cb93, (-34));
(0x10f1e3981fe669, (-35));
(0x10023e074ed9d1, (-36));
(0x1bc844c4a28967, (-38));
(0x15ea3bafbbdc03, (-39));
(0x1efe115bf08e1d, (-41));
(0x1341fd67558126, (-42));
(0x1467f1e2f8600b, (-44));
(0x118922301da1a6, (-46));
(0x162e5acd0c3ebd, (-49));
(0x10000000000000, (-52))];
[(0x15000000000000, (-47));
(0x177c56dd230f1a, (-45));
(0x152d24cf787dc1, (-43));
(0x1052a54d7cf7b6, (-41));
(0x16358aaa6aa105, (-40));
(0x1b35e1f28ee637, (-39));
(0x1e6f199482cdc3, (-38));
(0x1f6229723922f7, (-37));
(0x1e0f741eba923c, (-36));
(0x1ae62f7455bb37, (-35));
(0x1696e55e01eb3c, (-34));
(0x11de29443266ea, (-33));
(0x1ab3a7ed9900e5, (-33));
(0x12e46a39869284, (-32));
(0x195cdfacb2e6d6, (-32));
(0x102d40a8740077, (-31));
(0x13a1b99ba0d399, (-31));
(0x16afdb04e4bc84, (-31));
(0x18fb95a31d98f3, (-31));
(0x1a3a183bb5d572, (-31));
(0x1a410a9e296d69, (-31));
(0x190f8a229be870, (-31));
(0x16ce57dae0e620, (-31));
(0x13c72bcbccc3c0, (-31));
(0x1055a7ef0b1717, (-31));
(0x19ac1a1a48772b, (-32));
(0x132c26b4af68d9, (-32));
(0x1b2ca6822d650a, (-33));
(0x123da45ada3530, (-33));
(0x17243c3451672d, (-34));
(0x1baa927a1c7e52, (-35));
(0x1f0f7b6142a373, (-36));
(0x104d7217f5e5d3, (-36));
(0x1fd4209901c803, (-38));
(0x1cb184fab7e574, (-39));
(0x17abbe8ff3f55f, (-40));
(0x11a6690c09aa16, (-41));
(0x1760c7dbce8e8c, (-43));
(0x1ac943c75d7c3e, (-45));
(0x19695f5f5d63b5, (-47));
(0x12548eb9151e85, (-49));
(0x10000000000000, (-52))];
[(0x10000000000000, (-52));
(0x1a3ad12a1da160, (-50));
(0x1e0cca12e97894, (-48));
(0x1bc5c37001f29a, (-46));
(0x15f4c2f298f2ee, (-44));
(0x1ea8f75f86c2c7, (-43));
(0x134a331db35ab3, (-41));
(0x162ca0f5f5cc69, (-40));
(0x1784f959ebed5c, (-39));
(0x1730c2ad1c0ec2, (-38));
(0x15616c35a8381a, (-37));
(0x12841f8360f84e, (-36));
(0x1e3c96aee3883b, (-36));
(0x175895f988d0c8, (-35));
(0x111669b4ef1679, (-34));
(0x17c25fd43793e2, (-34));
(0x1f6e39951d0571, (-34));
(0x13ce22c61cd9e7, (-33));
(0x17cd8b7f2f5d63, (-33));
(0x1b4dc67fb87789, (-33));
(0x1de8ea513b825d, (-33));
(0x1f4d3d4484e060, (-33));
(0x1f4d3d4484e060, (-33));
(0x1de8ea513b825d, (-33));
(0x1b4dc67fb87789, (-33));
(0x17cd8b7f2f5d63, (-33));
(0x13ce22c61cd9e7, (-33));
(0x1f6e39951d0571, (-34));
(0x17c25fd43793e2, (-34));
(0x111669b4ef1679, (-34));
(0x175895f988d0c8, (-35));
(0x1e3c96aee3883b, (-36));
(0x12841f8360f84e, (-36));
(0x15616c35a8381a, (-37));
(0x1730c2ad1c0ec2, (-38));
(0x1784f959ebed5c, (-39));
(0x162ca0f5f5cc69, (-40));
(0x134a331db35ab3, (-41));
(0x1ea8f75f86c2c7, (-43));
(0x15f4c2f298f2ee, (-44));
(0x1bc5c37001f29a, (-46));
(0x1e0cca12e97894, (-48));
(0x1a3ad12a1da160, (-50));
(0x10000000000000, (-52))]];
   [[(0x10000000000000, (-52))];
[(0x1fa00000000000, (-45));
(0x167e93ddbc0e72, (-48));
(0x10000000000000, (-52))];
[(0x14c10000000000, (-39));
(0x1d951d5334068b, (-42));
(0x1f8ffbf1ce0f6c, (-45));
(0x16732f8d0e2f76, (-48));
(0x10000000000000, (-52))];
[(0x159e6000000000, (-35));
(0x17341d5542cac8, (-37));
(0x14abdfea3b143e, (-39));
(0x1d6814acfefd10, (-42));
(0x1f5fefae63c9ba, (-45));
(0x165c55827df1d1, (-48));
(0x10000000000000, (-52))];
[(0x17d6a300000000, (-32));
(0x112921347b59b9, (-33));
(0x157d118b1e1d5f, (-35));
(0x16f8e3bea3195b, (-37));
(0x146cbfa7df319f, (-39));
(0x1d0e4784da6efe, (-42));
(0x1f0fdae9c3be56, (-45));
(0x1639e2653e421a, (-48));
(0x10000000000000, (-52))];
[(0x101747a0000000, (-29));
(0x1d322c4b4085eb, (-31));
(0x17a5055dd212ef, (-32));
(0x10eb307157eee2, (-33));
(0x1519f12ab6a3d5, (-35));
(0x16837eaa84b968, (-37));
(0x14045f35ac3e52, (-39));
(0x1c883ecea9346b, (-42));
(0x1e9fbd201b4b66, (-45));
(0x160b9fd68a4554, (-48));
(0x10000000000000, (-52))];
[(0x1d032fb0000000, (-28));
(0x1fea30480a748f, (-29));
(0x1fd95c34cb2a27, (-30));
(0x1ca8bd8744923c, (-31));
(0x1711f6490f5ba3, (-32));
(0x107128ca8e7290, (-33));
(0x14775bd965f915, (-35));
(0x15d607a0bd2de7, (-37));
(0x1373fe8de11a57, (-39));
(0x1bd6c9abab3c2c, (-42));
(0x1e0f958d5e26d4, (-45));
(0x15d142b6dbadc5, (-48));
(0x10000000000000, (-52))];
[(0x127dcfa0000000, (-26));
(0x18095394ab9220, (-27));
(0x1ca4f7fbc41805, (-28));
(0x1f2f2009956004, (-29));
(0x1edde9432d52bf, (-30));
(0x1b9baf29226d42, (-31));
(0x1622c1126c8dd9, (-32));
(0x1f7d5fdb6aaa54, (-34));
(0x1399348dc8551d, (-35));
(0x14f39e39866521, (-37));
(0x12bd5da7abceac, (-39));
(0x1afaff89654aa1, (-42));
(0x1d5f63202249a2, (-45));
(0x158a68a4a8d9f3, (-48));
(0x10000000000000, (-52))];
[(0x1155f2a6000000, (-25));
(0x1a269ea9176358, (-26));
(0x1235d94b60f27c, (-26));
(0x175ee9e906601f, (-27));
(0x1b9027042cbf88, (-28));
(0x1dc34fb3cbb3b1, (-29));
(0x1d486941ce5135, (-30));
(0x1a1655778b649f, (-31));
(0x14dffc9ba80308, (-32));
(0x1db236cadd696f, (-34));
(0x1284d039ce5ddb, (-35));
(0x13e05ff7d98322, (-37));
(0x11e2bc763fceab, (-39));
(0x19f643197822ad, (-42));
(0x1c8f246603e828, (-45));
(0x1536948017480f, (-48));
(0x10000000000000, (-52))];
[(0x18965826000000, (-25));
(0x153e7ccf1e14ac, (-25));
(0x110656418d3f4a, (-25));
(0x194a9533309cac, (-26));
(0x11636e24d8830f, (-26));
(0x1615c98f768ab2, (-27));
(0x19d5c61d51571d, (-28));
(0x1bbaa5a43c4be6, (-29));
(0x1b2c6009ea7496, (-30));
(0x1828f8cfd1eb25, (-31));
(0x1355332059e7b0, (-32));
(0x1b8e8e5a129492, (-34));
(0x1140d9c9ac4dc4, (-35));
(0x12a15d3df2a1c1, (-37));
(0x10e6dae768109d, (-39));
(0x18ca46457aff11, (-42));
(0x1b9ed76ec6f290, (-45));
(0x14d529a457fcfb, (-48));
(0x10000000000000, (-52))];
[(0x1aeaa690000000, (-25));
(0x1a64d6bf3a0bdf, (-25));
(0x18126f2a2ab747, (-25));
(0x146cffb452a851, (-25));
(0x101ec0c572a7b7, (-25));
(0x17a4c800560572, (-26));
(0x1016656040586e, (-26));
(0x14444566476107, (-27));
(0x1790b0a140f88d, (-28));
(0x1931378311a739, (-29));
(0x18a37560794bcb, (-30));
(0x15e803bfe2d432, (-31));
(0x11906a356813e4, (-32));
(0x1922bec3290443, (-34));
(0x1faa5c4472efd0, (-36));
(0x113c8b30a21071, (-37));
(0x1f99f1c2991cf4, (-40));
(0x17790f50cc44a5, (-42));
(0x1a8e79a1ab9a94, (-45));
(0x1465655f122ff6, (-48));
(0x10000000000000, (-52))];
[(0x171245a0000000, (-25));
(0x1981a11cee434d, (-25));
(0x1a42f84337cfac, (-25));
(0x193641ed1add90, (-25));
(0x1694e0300947cc, (-25));
(0x12deaae37fff87, (-25));
(0x1d680d37fc1067, (-26));
(0x1557ab71fade37, (-26));
(0x1ccea9e5213865, (-27));
(0x12094510bd8907, (-27));
(0x14e3687a42c181, (-28));
(0x16494f9600cf36, (-29));
(0x15cbe774722e17, (-30));
(0x136af943508f49, (-31));
(0x1f431cfdff8b1e, (-33));
(0x16813bc0f20921, (-34));
(0x1c95603cf1baba, (-36));
(0x1f71649cff693f, (-38));
(0x1d31ac7ddae937, (-40));
(0x1604ff6eaca856, (-42));
(0x195e077d6eedc1, (-45));
(0x13e655eefe1367, (-48));
(0x10000000000000, (-52))];
[(0x1f436d30000000, (-26));
(0x13662b01a0e741, (-25));
(0x166bdd5811974a, (-25));
(0x182f3d889ac497, (-25));
(0x1860f8521b04bc, (-25));
(0x16fc0afe919ce6, (-25));
(0x144609718091bf, (-25));
(0x10b9edda604728, (-25));
(0x19cbe57ea7e6bb, (-26));
(0x1291f93ca14025, (-26));
(0x18ea1ff67ad6ad, (-27));
(0x1f12eb58ea6246, (-28));
(0x11f54f966b17b5, (-28));
(0x13290271835dfc, (-29));
(0x12c6b3e9fc1c38, (-30));
(0x10cb3ee4771d12, (-31));
(0x1b338f39bfecda, (-33));
(0x13bdf9be25b50d, (-34));
(0x19562917a16b5c, (-36));
(0x1c3ab2d903492f, (-38));
(0x1a9d6594e7a2b6, (-40));
(0x1470db2fdc80e0, (-42));
(0x180d7c362140be, (-45));
(0x1356cdebc9b5e2, (-48));
(0x10000000000000, (-52))];
[(0x10d58990000000, (-26));
(0x1765374aea7b2d, (-26));
(0x1e3e5fe8fc7b19, (-26));
(0x123cd3dc5c6a1e, (-25));
(0x1490e2ec69e94a, (-25));
(0x15b7e5e1f35b8c, (-25));
(0x158004a80a7d28, (-25));
(0x13f65a43a6f183, (-25));
(0x11626b7f99c3ee, (-25));
(0x1c63815aad0f93, (-26));
(0x15b6ab3ab9126b, (-26));
(0x1f12eb58ea6246, (-27));
(0x14c31aa2bbb2e5, (-27));
(0x19d7fc4863ff0b, (-28));
(0x1ddf06f43fa142, (-29));
(0x1fef0412859ca5, (-30));
(0x1f6b26f45b7c28, (-31));
(0x1c45920b55c3d2, (-32));
(0x1715739925d826, (-33));
(0x10edbf8fc3bddd, (-34));
(0x16014c4832a6bb, (-36));
(0x18e5595fe68941, (-38));
(0x17e69c67727007, (-40));
(0x12bfd55524c955, (-42));
(0x169cd11a1f3bc2, (-45));
(0x12b5524ae1278d, (-48));
(0x10000000000000, (-52))];
[(0x1cdbc740000000, (-28));
(0x16720cc0000000, (-27));
(0x1032615b3fdf1f, (-26));
(0x15c6827eca4426, (-26));
(0x1b5b3dca8a9f2d, (-26));
(0x1018588c7f68a9, (-25));
(0x11c501e76a0515, (-25));
(0x126dbad92d8fd9, (-25));
(0x11f7513ce30c8f, (-25));
(0x10782ff225e20a, (-25));
(0x1c63815aad0f93, (-26));
(0x16fda63e2d5ecc, (-26));
(0x117aa46203d747, (-26));
(0x18ea1ff67ad6ad, (-27));
(0x109d222e896d19, (-27));
(0x14ae1881b5e5cb, (-28));
(0x17f3430de4357b, (-29));
(0x19b4c2c7edc2ac, (-30));
(0x1971d03d66c9d7, (-31));
(0x1715739925d826, (-32));
(0x130b7781bc3598, (-33));
(0x1c4acfca8a4415, (-35));
(0x12ac0307ece6f0, (-36));
(0x1582bff6b3cb3a, (-38));
(0x1517cfffc96280, (-40));
(0x10f59cd3976cd2, (-42));
(0x150bfc943d4c7f, (-45));
(0x12000000000000, (-48));
(0x10000000000000, (-52))];
[(0x13a31600000000, (-29));
(0x111ee6ca573b1a, (-28));
(0x1b95576270181b, (-28));
(0x14a4395827ee2a, (-27));
(0x1cd17fd82b1087, (-27));
(0x12d38866a62025, (-26));
(0x17136d09df7eea, (-26));
(0x1a95928c6f1965, (-26));
(0x1cd2cefbdd72c6, (-26));
(0x1d70282a983236, (-26));
(0x1c55cd8a1d81f3, (-26));
(0x19b4c89b4629bf, (-26));
(0x15f995ea166ae1, (-26));
(0x11b082517c5993, (-26));
(0x1aca568c0932ab, (-27));
(0x130e3ebc634ac4, (-27));
(0x1969eef018ea3f, (-28));
(0x1fb2531433790b, (-29));
(0x126d7cb3f2e7b1, (-29));
(0x13e5fea5eddcb9, (-30));
(0x13db80a01c9814, (-31));
(0x123409ff218339, (-32));
(0x1e6c20b3dd1121, (-34));
(0x16f22c7e64ae4e, (-35));
(0x1ed72469e201d3, (-37));
(0x122518272d7c52, (-38));
(0x123c7ed772ed11, (-40));
(0x1e2cde7241d999, (-43));
(0x135af0797de177, (-45));
(0x113463fa37014e, (-48));
(0x10000000000000, (-52))];
[(0x150ff480000000, (-31));
(0x14a9a1b32c50da, (-30));
(0x129d87dc69e9d3, (-29));
(0x1f068d1a05db0a, (-29));
(0x180bef464c9a6c, (-28));
(0x11686bd71aefc3, (-27));
(0x179e7a1efbb332, (-27));
(0x1e1bc6ae58e69e, (-27));
(0x1210d04bb364ba, (-26));
(0x1470611d72c0ad, (-26));
(0x15d2dd158b0073, (-26));
(0x16019dcdd1a260, (-26));
(0x14f6777592929e, (-26));
(0x12dcf9981cb927, (-26));
(0x1007354c791881, (-26));
(0x19b3c567abf295, (-27));
(0x136c9c4ead7d0f, (-27));
(0x1ba1e774843e79, (-28));
(0x12767374dab401, (-28));
(0x171e73eb5d3409, (-29));
(0x1b0b60d8710126, (-30));
(0x1d713838cdd137, (-31));
(0x1db04b2ede3d75, (-32));
(0x1b90b20e36b759, (-33));
(0x1763ce01bb2ef7, (-34));
(0x11f6c7fba6a95a, (-35));
(0x18a9442f286855, (-37));
(0x1dbe15f03bb100, (-39));
(0x1ec24ccac2cbb7, (-41));
(0x1a4e62756f1e5b, (-43));
(0x118996f8f4bee7, (-45));
(0x104f3bd03c0a64, (-48));
(0x10000000000000, (-52))];
[(0x11921a00000000, (-33));
(0x1386da06be9ac4, (-32));
(0x13c13ce0b45f87, (-31));
(0x125f22b8627bcf, (-30));
(0x1fa3d83d8d2a8f, (-30));
(0x195e52dae8f075, (-29));
(0x13054ba4c254c1, (-28));
(0x1ac35b45a45b37, (-28));
(0x11b6db973cc666, (-27));
(0x161baf019333db, (-27));
(0x1a0e0048b0db6e, (-27));
(0x1d078756e50590, (-27));
(0x1e9a5782974ca7, (-27));
(0x1e8a348635601b, (-27));
(0x1cdae94a6e3016, (-27));
(0x19cf0de7b8b8ed, (-27));
(0x15d7baef7d644d, (-27));
(0x117a7d3719c251, (-27));
(0x1a6b1eceaff1ba, (-28));
(0x12d40d9d0ce778, (-28));
(0x1942c7a9e6a289, (-29));
(0x1fd2b7986116ba, (-30));
(0x12c40dc1c63a62, (-30));
(0x14a4a4820ef2e3, (-31));
(0x151555902788f4, (-32));
(0x13e0a7cfb855dc, (-33));
(0x112cbd3320b660, (-34));
(0x1af22bf979fe07, (-36));
(0x12f50be3b601e4, (-37));
(0x1786ae6ee479c7, (-39));
(0x1926846891c63d, (-41));
(0x165b205cf35ae1, (-43));
(0x1f2f9964682378, (-46));
(0x1e98180e9b47f1, (-49));
(0x10000000000000, (-52))];
[(0x164fe000000000, (-36));
(0x1c6607aced9142, (-35));
(0x103e7f11d0e123, (-33));
(0x10ee8dda7f4764, (-32));
(0x103d061c2db122, (-31));
(0x1cde43c0513ae8, (-31));
(0x17eae83501c0fa, (-30));
(0x128d1eab415f4f, (-29));
(0x1b08ea4cc3ac4e, (-29));
(0x128e8f9eb5c3d0, (-28));
(0x180cec91de5465, (-28));
(0x1d7a3eacc44525, (-28));
(0x111b11fcd3a73f, (-27));
(0x12d12501946ed6, (-27));
(0x13a1bb8db9aab9, (-27));
(0x136e9ad5d4d89c, (-27));
(0x123fe495d4dd2c, (-27));
(0x10420d91beabd8, (-27));
(0x1b76fb38bcdf06, (-28));
(0x15fa2ca6a8b3ae, (-28));
(0x10a45d88332712, (-28));
(0x17d0f047aef0a0, (-29));
(0x1012b6aa7cf493, (-29));
(0x146a1f1aa85412, (-30));
(0x185402d3aa2c70, (-31));
(0x1b1b136112a3a0, (-32));
(0x1c1c72158a0bf0, (-33));
(0x1afccf1421c4b3, (-34));
(0x17d12e17c64c0d, (-35));
(0x13265134e8a472, (-36));
(0x1bb9cc4e94bc33, (-38));
(0x11c8b81cab9b64, (-39));
(0x13c293ae1401fd, (-41));
(0x12606185159a22, (-43));
(0x1b0aa8901b4454, (-46));
(0x1c48c6001f0abf, (-49));
(0x10000000000000, (-52))];
[(0x14d20000000000, (-39));
(0x1ee3dbc247b6cb, (-38));
(0x143452a2edaaaa, (-36));
(0x17c64178496515, (-35));
(0x198283d365f7d3, (-34));
(0x1934d58185c6fa, (-33));
(0x171b190c0ff666, (-32));
(0x13c2cdf1516045, (-31));
(0x1fad1f00020131, (-31));
(0x17e07ae1fe6794, (-30));
(0x10f97d86eb144e, (-29));
(0x16d086a27a0ca6, (-29));
(0x1d09c69f2ffdc6, (-29));
(0x11865b612855d7, (-28));
(0x1414cbbc5cd875, (-28));
(0x15dc96f28f627f, (-28));
(0x169f74f4c29574, (-28));
(0x16420a469c7c30, (-28));
(0x14d2074b71b8db, (-28));
(0x1282f92ea4f5cd, (-28));
(0x1f45938ea8c8bf, (-29));
(0x1912bda9990145, (-29));
(0x130fee91affa97, (-29));
(0x1b71df5e313eff, (-30));
(0x12ac8031216353, (-30));
(0x17f73061db4310, (-31));
(0x1ced4b4165c0f8, (-32));
(0x105d111e065339, (-32));
(0x1147cbd1f6a98b, (-33));
(0x10f1e3981fe669, (-34));
(0x1ea7895ad8a650, (-36));
(0x195c955117ab78, (-37));
(0x12fa9abbe03571, (-38));
(0x194e23a52af1ec, (-40));
(0x1d6aaf14101b7a, (-42));
(0x1cdbc61020c480, (-44));
(0x16a3724d10762c, (-46));
(0x199ccc999fff00, (-49));
(0x10000000000000, (-52))];
[(0x1ae80000000000, (-43));
(0x17f8516ff07aad, (-41));
(0x123fde30f93b6b, (-39));
(0x1884ab05031b33, (-38));
(0x1da6e5037e399c, (-37));
(0x105cd936263d5c, (-35));
(0x10a4c1fd378887, (-34));
(0x1f7019173001e2, (-34));
(0x1bba1e0e798e14, (-33));
(0x16f08f015aa05d, (-32));
(0x11de29443266ea, (-31));
(0x1a4800491e35c9, (-31));
(0x124ad6b0708e00, (-30));
(0x182508199896d6, (-30));
(0x1e4392fa8718d4, (-30));
(0x12086c57fb8f04, (-29));
(0x147321577231bf, (-29));
(0x1614f3942f05d1, (-29));
(0x16b693981ef835, (-29));
(0x16420a469c7c30, (-29));
(0x14c77c0273bb44, (-29));
(0x1279993999295b, (-29));
(0x1f45938ea8c8bf, (-30));
(0x192c5d5c21203b, (-30));
(0x13411393b65960, (-30));
(0x1bf2cc626f4538, (-31));
(0x1337183d8a99ec, (-31));
(0x18fa2bb08c321c, (-32));
(0x1e9d06c7f1ebe2, (-33));
(0x11a2458f33a690, (-33));
(0x130544b3f396d8, (-34));
(0x131dcc8120daf8, (-35));
(0x11caf11022321a, (-36));
(0x1e6f199482cdc3, (-38));
(0x17abbe8ff3f55f, (-39));
(0x108295faac5997, (-40));
(0x143ef8dce09036, (-42));
(0x152d24cf787dc1, (-44));
(0x11f7fe3818d80b, (-46));
(0x16732f8d0e2f76, (-49));
(0x10000000000000, (-52))];
[(0x15800000000000, (-47));
(0x1857df23138dc4, (-45));
(0x163a965a55e376, (-43));
(0x115b9a260137a0, (-41));
(0x17ef18ec451574, (-40));
(0x1dba46dc7b922c, (-39));
(0x10dc32b5ad91a7, (-37));
(0x11a3bb0370f205, (-36));
(0x11264b26e6b269, (-35));
(0x1f2ad0ec60c33b, (-35));
(0x1a977bc8269ff4, (-34));
(0x15616c35a8381a, (-33));
(0x103f8717b70f0a, (-32));
(0x1765e95d10d479, (-32));
(0x1ffca5a50147b0, (-32));
(0x14ca13d9b0a166, (-31));
(0x19ba4cb5f13a87, (-31));
(0x1e57c6ae7e1d6e, (-31));
(0x11109c0fd34ab5, (-30));
(0x1250e245871383, (-30));
(0x12c3c4aa1fe516, (-30));
(0x125a2d919df147, (-30));
(0x11220c9b54c609, (-30));
(0x1e86ce73e12085, (-31));
(0x19f0495fbc0b29, (-31));
(0x1501b0eef4d94c, (-31));
(0x1032ededd0c609, (-31));
(0x17c25fd43793e2, (-32));
(0x108b81d0ef01c5, (-32));
(0x15d6958a0fb53e, (-33));
(0x1b4145b42acee8, (-34));
(0x100911283e2a13, (-34));
(0x11ba52856f154d, (-35));
(0x12556bd657096e, (-36));
(0x11a3bb0370f205, (-37));
(0x1f5bf7228fe726, (-39));
(0x19849fc6dd2f79, (-40));
(0x12c67d98b9d595, (-41));
(0x188c33d181ee9e, (-43));
(0x1bc5c37001f29a, (-45));
(0x1a0626a83299e8, (-47));
(0x128c17b9337833, (-49));
(0x10000000000000, (-52))];
[(0x10000000000000, (-52));
(0x1a887293fd6f34, (-50));
(0x1ec1d2284fc275, (-48));
(0x1cc548f9a00a9c, (-46));
(0x17071aba964a4a, (-44));
(0x104877e2c27039, (-42));
(0x14c1c67a700941, (-41));
(0x182e5c638f5975, (-40));
(0x1a006fef0f0de1, (-39));
(0x1a006fef0f0de1, (-38));
(0x185286e27f18f8, (-37));
(0x15616c35a8381a, (-36));
(0x11ba52856f154d, (-35));
(0x1bd04e5040a111, (-35));
(0x14b1ad5831184a, (-34));
(0x1d440bfdd673f8, (-34));
(0x13b33d06098bef, (-33));
(0x19486172660dd5, (-33));
(0x1ef703d7a1b82f, (-33));
(0x121c7e123117cf, (-32));
(0x143fc193fff041, (-32));
(0x15a5ab1ef6ef8f, (-32));
(0x16223743131d48, (-32));
(0x15a5ab1ef6ef8f, (-32));
(0x143fc193fff041, (-32));
(0x121c7e123117cf, (-32));
(0x1ef703d7a1b82f, (-33));
(0x19486172660dd5, (-33));
(0x13b33d06098bef, (-33));
(0x1d440bfdd673f8, (-34));
(0x14b1ad5831184a, (-34));
(0x1bd04e5040a111, (-35));
(0x11ba52856f154d, (-35));
(0x15616c35a8381a, (-36));
(0x185286e27f18f8, (-37));
(0x1a006fef0f0de1, (-38));
(0x1a006fef0f0de1, (-39));
(0x182e5c638f5975, (-40));
(0x14c1c67a700941, (-41));
(0x104877e2c27039, (-42));
(0x17071aba964a4a, (-44));
(0x1cc548f9a00a9c, (-46));
(0x1ec1d2284fc275, (-48));
(0x1a887293fd6f34, (-50));
(0x10000000000000, (-52))]];
   [[(0x17000000000000, (-48));
(0x10000000000000, (-52))];
[(0x1fa00000000000, (-42));
(0x1083ff83ff062c, (-44));
(0x16fa6ea162d0f0, (-48));
(0x10000000000000, (-52))];
[(0x19f14000000000, (-37));
(0x16a4f5502456f4, (-39));
(0x1f88f79cce04bb, (-42));
(0x1073fb9fb966a4, (-44));
(0x16e9b2675a6626, (-48));
(0x10000000000000, (-52))];
[(0x14131000000000, (-33));
(0x18a6288ad2e463, (-35));
(0x19d18ca1a7e49e, (-37));
(0x1678dfd0eb66cb, (-39));
(0x1f43ffbe7f2ad8, (-42));
(0x1053f3c049cc48, (-44));
(0x16cdb2bbb212eb, (-48));
(0x10000000000000, (-52))];
[(0x11e0fa40000000, (-30));
(0x1c6ad368c938f7, (-32));
(0x13f05aff4ad246, (-33));
(0x185da01a63b843, (-35));
(0x1972fcbc9c2e3f, (-37));
(0x162134d087cf2b, (-39));
(0x1ed17c96c0e910, (-42));
(0x1023e7b692c6f4, (-44));
(0x16a645d9411b84, (-48));
(0x10000000000000, (-52))];
[(0x147ab840000000, (-28));
(0x1411a500ee0f60, (-29));
(0x11b8a6a54b4ec6, (-30));
(0x1bfa07eee4e834, (-32));
(0x138939fe34706b, (-33));
(0x17ce3669587505, (-35));
(0x18d72da593f48b, (-37));
(0x159ef44aea1940, (-39));
(0x1e32163051ed77, (-42));
(0x1fc7ae70dd9434, (-45));
(0x16732f8d0e2f76, (-48));
(0x10000000000000, (-52))];
[(0x102e15ac000000, (-26));
(0x12f24d896f676a, (-27));
(0x1441311f49cac6, (-28));
(0x13ac7ffa54ee62, (-29));
(0x11414d79b58449, (-30));
(0x1b1c5400398604, (-32));
(0x12e09fcc23331c, (-33));
(0x16fb31d71fb8a8, (-35));
(0x1800cbe3ddef11, (-37));
(0x14f39e39866521, (-39));
(0x1d66ba0e29e5a4, (-42));
(0x1f2783b829c336, (-45));
(0x16341f58bada13, (-48));
(0x10000000000000, (-52))];
[(0x127dcfa0000000, (-25));
(0x195209a7d75f07, (-26));
(0x1fee375f60681e, (-27));
(0x127d6932e4532d, (-27));
(0x1397a50e7494c6, (-28));
(0x12e6e99ff09ab9, (-29));
(0x107fbfcb051323, (-30));
(0x19d957ddc2ab7f, (-32));
(0x11fb5e8401db79, (-33));
(0x15e967f24d91d4, (-35));
(0x16f38c98eb7c1f, (-37));
(0x14213292b4657b, (-39));
(0x1c709d8824490e, (-42));
(0x1e674e2246b40e, (-45));
(0x15e8add236a58e, (-48));
(0x10000000000000, (-52))];
[(0x1f9cba7a000000, (-25));
(0x18ebf3b67b878a, (-25));
(0x123342177823ca, (-25));
(0x189745e55df98f, (-26));
(0x1eab95bf08e500, (-27));
(0x119a86fb2b8204, (-27));
(0x1286fba9ab7e09, (-28));
(0x11ca043b277f30, (-29));
(0x1ef7867505beb5, (-31));
(0x183c2671d7f96c, (-32));
(0x10e004037f85ce, (-33));
(0x149f2577d75d89, (-35));
(0x15b424245ff89f, (-37));
(0x132a3148b3954e, (-39));
(0x1b5140ff135b1e, (-42));
(0x1d870c2cd47a20, (-45));
(0x1590590a698c4b, (-48));
(0x10000000000000, (-52))];
[(0x14b48020000000, (-24));
(0x129613bb3214d6, (-24));
(0x1f076b627cae81, (-25));
(0x18139e84554aa1, (-25));
(0x115986f467a09a, (-25));
(0x172f3d86760414, (-26));
(0x1ca952c6a2a546, (-27));
(0x1056eafa41659c, (-27));
(0x111d614c6980c4, (-28));
(0x1062da1ffb8397, (-29));
(0x1c7f65163afb1d, (-31));
(0x1652d7f45d1742, (-32));
(0x1f2d51afb657aa, (-34));
(0x13240e51e629cf, (-35));
(0x144839e27ce0bd, (-37));
(0x12119a4826aa83, (-39));
(0x1a0a740d6dfc3a, (-42));
(0x1c86bbd609a25f, (-45));
(0x152a7fa9d2f8e9, (-48));
(0x10000000000000, (-52))];
[(0x15261528000000, (-24));
(0x157148265f3fe4, (-24));
(0x1442e240165caf, (-24));
(0x11da2efce9c73c, (-24));
(0x1d5593eeb81e0e, (-25));
(0x1675a4f8007ac5, (-25));
(0x1001c0957c26a9, (-25));
(0x15339b01385bbe, (-26));
(0x1a08747363076b, (-27));
(0x1d8a608859f21e, (-28));
(0x1edaa52f5aaed7, (-29));
(0x1d8339d4407ab8, (-30));
(0x19affae5dee8cc, (-31));
(0x142dfcc59122b0, (-32));
(0x1c5164a02088c8, (-34));
(0x1180f596119553, (-35));
(0x12b658d5cf5fa2, (-37));
(0x10daed75b9e1d8, (-39));
(0x189e5ae8d6f5f2, (-42));
(0x1b665a70daa248, (-45));
(0x14b65a49968d7e, (-48));
(0x10000000000000, (-52))];
[(0x110d8160000000, (-24));
(0x136ade5b3b7e8d, (-24));
(0x149fe8538441d4, (-24));
(0x14767eefbc698f, (-24));
(0x12fa96abb8767d, (-24));
(0x10758044115a77, (-24));
(0x1aaf98756c1542, (-25));
(0x1435289ee7ffe8, (-25));
(0x1c8cd12efa8884, (-26));
(0x12c7b147d1214d, (-26));
(0x16f318e77f5e66, (-27));
(0x19f7b3580c9e85, (-28));
(0x1b18bb2439b08b, (-29));
(0x19f16a10d2c3c1, (-30));
(0x16a51a07f109bb, (-31));
(0x11dff47f5c4c91, (-32));
(0x19411137b0f435, (-34));
(0x1f7f5b056c699c, (-36));
(0x1105dcfd283ec3, (-37));
(0x1f145554e02f7a, (-40));
(0x170f753d808ecd, (-42));
(0x1a25e4636018e7, (-45));
(0x1432f24fb01c7a, (-48));
(0x10000000000000, (-52))];
[(0x15e26608000000, (-25));
(0x1be21de1e2d607, (-25));
(0x1090ac59b51197, (-24));
(0x12650ebd010a61, (-24));
(0x131e9af3413732, (-24));
(0x129e9e9c71cb3b, (-24));
(0x10ff4ef5eed6b9, (-24));
(0x1d16fa1570adf0, (-25));
(0x1752dd6884882a, (-25));
(0x11818ac7e3283b, (-25));
(0x1890ea7997d217, (-26));
(0x10150fd80ca745, (-26));
(0x1398d1c317f08a, (-27));
(0x16272fe7abc200, (-28));
(0x17235c9d091922, (-29));
(0x16375e10777d70, (-30));
(0x137c26b669e9ff, (-31));
(0x1ef85c79c15c45, (-33));
(0x161284362f1fb7, (-34));
(0x1bd59ef5c884ce, (-36));
(0x1e7dba0596e88e, (-38));
(0x1c47a35b5749c6, (-40));
(0x1560a6e9fe0738, (-42));
(0x18c554c259b45f, (-45));
(0x139f152d0f5470, (-48));
(0x10000000000000, (-52))];
[(0x16720cc0000000, (-26));
(0x1ff0c5b0287d08, (-26));
(0x1529731f3eb1e0, (-25));
(0x1a3117d7777772, (-25));
(0x1e596612ed09bf, (-25));
(0x107d4cdd23b495, (-24));
(0x10d2adaf483765, (-24));
(0x1020037e07ddde, (-24));
(0x1d0ca7c5f6185c, (-25));
(0x1895d81db2a699, (-25));
(0x1389d715ef31d2, (-25));
(0x1d21bca35bbc21, (-26));
(0x1457b79643fb25, (-26));
(0x1a8f1a9bd2bfb2, (-27));
(0x102a95c305d8db, (-27));
(0x124ad42270bbe3, (-28));
(0x13290271835dfc, (-29));
(0x127c2cfe0bb441, (-30));
(0x10529cff22aebc, (-31));
(0x1a2cb02fc5e3b4, (-33));
(0x12dc8a8706d80e, (-34));
(0x181af7fffeac28, (-36));
(0x1ad41faed16926, (-38));
(0x1959c4568163a0, (-40));
(0x1395432d5b7110, (-42));
(0x1744a4b2972ea1, (-45));
(0x12f9422c23c47d, (-48));
(0x10000000000000, (-52))];
[(0x1268e4a0000000, (-27));
(0x1d41aefb7b9ecc, (-27));
(0x15965fad866c76, (-26));
(0x1db48d644daba6, (-26));
(0x131e423aeabd84, (-25));
(0x17136d09df7eea, (-25));
(0x1a2a6431f9e48b, (-25));
(0x1be88029d8983d, (-25));
(0x1c0635273da681, (-25));
(0x1a814fb0b6df49, (-25));
(0x179cd5f31896f5, (-25));
(0x13ced597166049, (-25));
(0x1f455941774e96, (-26));
(0x17337eb8530d08, (-26));
(0x1027bbc49aa120, (-26));
(0x15126f597bc708, (-27));
(0x19ad5aa9979d18, (-28));
(0x1d230087788a86, (-29));
(0x1eaa5f8323fa21, (-30));
(0x1dc940f02ae41e, (-31));
(0x1a891daa61746b, (-32));
(0x158309b67e6369, (-33));
(0x1f6b8b3306d606, (-35));
(0x1466254ecb5a20, (-36));
(0x17215b4f69815e, (-38));
(0x1655b74492fbd2, (-40));
(0x11b11b1a6dcf8f, (-42));
(0x15a3ca6566bce2, (-45));
(0x123f8fc68ae52b, (-48));
(0x10000000000000, (-52))];
[(0x18123c00000000, (-29));
(0x156623d031427b, (-28));
(0x119700d55d8cc4, (-27));
(0x1ae28b50025c09, (-27));
(0x132ebcaed394d9, (-26));
(0x19a42d9e0d0c0c, (-26));
(0x1017fac8ad2046, (-25));
(0x130244bdf99526, (-25));
(0x152806f545d126, (-25));
(0x1635c0faef1e8d, (-25));
(0x16019dcdd1a260, (-25));
(0x1495c3fffb3ff7, (-25));
(0x122d5114bd8f23, (-25));
(0x1e4a55a9bd7487, (-26));
(0x17cbaf3175f2be, (-26));
(0x119acfa1bffef0, (-26));
(0x187e5887fffe86, (-27));
(0x1ffa7409ce1096, (-28));
(0x138a016d4a3f6e, (-28));
(0x164729f0dd512b, (-29));
(0x179b3853a028fa, (-30));
(0x172219e37d2462, (-31));
(0x14d65c4415dc70, (-32));
(0x111e9fd1a7b922, (-33));
(0x1967a8a1e49563, (-35));
(0x10cdc411cab106, (-36));
(0x137896d292671e, (-38));
(0x13477a8c186ff2, (-40));
(0x1f71210facf8c9, (-43));
(0x13e2b75c8f1a19, (-45));
(0x116f8334644df8, (-48));
(0x10000000000000, (-52))];
[(0x18e44f80000000, (-31));
(0x18db8d2578077d, (-30));
(0x16cf985ffd09ad, (-29));
(0x13601f228f2efc, (-28));
(0x1ea2a411d3fcb8, (-28));
(0x16a39ef0fbabad, (-27));
(0x1f61ed7b4e9690, (-27));
(0x14746718644ea4, (-26));
(0x192050edb6d7b7, (-26));
(0x1d2149b6c4683b, (-26));
(0x1fe90cb5e7781c, (-26));
(0x10870735d88878, (-25));
(0x10323abb52c672, (-25));
(0x1e088a81847f30, (-26));
(0x1a574bec540df9, (-26));
(0x15d7baef7d644d, (-26));
(0x111c475f6f4284, (-26));
(0x194b31dafd83b8, (-27));
(0x119cbf34754bd1, (-27));
(0x170f55dd5feea0, (-28));
(0x1c50983ff2ae0d, (-29));
(0x10406ebd72f74a, (-29));
(0x115fb083cba104, (-30));
(0x1136e7aa8452d7, (-31));
(0x1f6ddeee634ee9, (-33));
(0x1a3c213e10725e, (-34));
(0x13d4eabdf9f3a5, (-35));
(0x1acf3e7d45b306, (-37));
(0x1fdabfc77e38bc, (-39));
(0x103c0b84c9e571, (-40));
(0x1b615ea691e6ce, (-43));
(0x12015548b1ec7b, (-45));
(0x1085d06e1f0517, (-48));
(0x10000000000000, (-52))];
[(0x1414b000000000, (-33));
(0x16af062e800fba, (-32));
(0x1756c54114f8a7, (-31));
(0x161629ebc4074a, (-30));
(0x135d8a4d3ad6df, (-29));
(0x1fa3d83d8d2a8f, (-29));
(0x1830183aae4879, (-28));
(0x115d09cd7d9eac, (-27));
(0x1779098537dc24, (-27));
(0x1df14f06392aed, (-27));
(0x120d1cc1341c1b, (-26));
(0x1499194fe2c19e, (-26));
(0x1643b8e8dd829f, (-26));
(0x16cf5fa68c2263, (-26));
(0x1627ec136cb584, (-26));
(0x146755c6ec49d7, (-26));
(0x11cf4cf646ff85, (-26));
(0x1d73e3324c2a76, (-27));
(0x170cc8111a377e, (-27));
(0x110d934df69304, (-27));
(0x17d0f047aef0a0, (-28));
(0x1f550da70f33a9, (-29));
(0x135def267e66d4, (-29));
(0x166df1459cc7db, (-30));
(0x183e7f7c0a4e69, (-31));
(0x18584e0395ba04, (-32));
(0x16945301494e01, (-33));
(0x1333b4265bd3dc, (-34));
(0x1daaa31d9967f3, (-36));
(0x148fde30e9a705, (-37));
(0x1926846891c63d, (-39));
(0x1a82cb05ca63c2, (-41));
(0x173e9f9d7b8bff, (-43));
(0x1ffefffbffdffe, (-46));
(0x1efbdeb14f4ed9, (-49));
(0x10000000000000, (-52))];
[(0x18b96000000000, (-36));
(0x1ff22911312b77, (-35));
(0x128f14f52448d6, (-33));
(0x13a819875511c0, (-32));
(0x132a61d240e4b6, (-31));
(0x115452c90bf8cc, (-30));
(0x1d3a129cae0c09, (-30));
(0x17167ca3e77504, (-29));
(0x112530c7760939, (-28));
(0x1801738d3d7b0a, (-28));
(0x1fc1ab030480fd, (-28));
(0x13e18ef4152545, (-27));
(0x1797f16156fe31, (-27));
(0x1a90a2383de842, (-27));
(0x1c662ee65b711a, (-27));
(0x1cd6b0193b0dce, (-27));
(0x1bd28cd8439b3c, (-27));
(0x197fecd0f6ebe1, (-27));
(0x1631d457ec04fa, (-27));
(0x1255af6a05c154, (-27));
(0x1cb9976ae38f48, (-28));
(0x154fee035ba77a, (-28));
(0x1de8445fe4bf2c, (-29));
(0x13ce7c9b6878e4, (-29));
(0x18b402106a9497, (-30));
(0x1ced4b4165c0f8, (-31));
(0x1fb017d5770961, (-32));
(0x102a15189a035a, (-32));
(0x1e8c3d9d3c4bb2, (-34));
(0x1a8c2a7f2a60dd, (-35));
(0x15075d9b99fada, (-36));
(0x1e0220ccad3989, (-38));
(0x12fa9abbe03571, (-39));
(0x14ccff6628daec, (-41));
(0x13168d8febacbb, (-43));
(0x1bb9f1804f4e6d, (-46));
(0x1ca2b9714180f6, (-49));
(0x10000000000000, (-52))];
[(0x166c0000000000, (-39));
(0x10ddcb222e6557, (-37));
(0x1661c9aca49b59, (-36));
(0x1aba5704869f06, (-35));
(0x1d1e1c4a184f7e, (-34));
(0x1d39a50f51427e, (-33));
(0x1b39db79e78087, (-32));
(0x17ad2bf03dd96e, (-31));
(0x134e7e9b85d0cd, (-30));
(0x1da16361bfb9ce, (-30));
(0x157563d0f95a19, (-29));
(0x1d669c2c67d2b8, (-29));
(0x131688d97a267e, (-28));
(0x17860bf62d5901, (-28));
(0x1b8bb3f42f8b77, (-28));
(0x1eacb2032b4a9f, (-28));
(0x104075aada3b27, (-27));
(0x10644f2551a567, (-27));
(0x1f7a3ee294c1c9, (-28));
(0x1cc47e21228a87, (-28));
(0x1903e81cd01f6a, (-28));
(0x14af30e9613e94, (-28));
(0x103fd1cbf370c4, (-28));
(0x183a4903d2543f, (-29));
(0x111d66bc304f72, (-29));
(0x16dee4ce7e5f2a, (-30));
(0x1cd75a30c4d70e, (-31));
(0x111d07ef1e10db, (-31));
(0x130bf8825eb5f5, (-32));
(0x13cc185f59a902, (-33));
(0x131dcc8120daf8, (-34));
(0x1109064cfd9a1f, (-35));
(0x1bc844c4a28967, (-37));
(0x147fe47fed8df3, (-38));
(0x1af5fc5d77b4cf, (-40));
(0x1eed1ee574faf8, (-42));
(0x1df2a7b2d412bd, (-44));
(0x173290c38441a8, (-46));
(0x19ec474a261263, (-49));
(0x10000000000000, (-52))];
[(0x1c380000000000, (-43));
(0x1977630414064a, (-41));
(0x13a5d0ebee4774, (-39));
(0x1ac24d97aa6813, (-38));
(0x1068c25143cd26, (-36));
(0x125f77c2e95596, (-35));
(0x12f7b90c6343dc, (-34));
(0x12309c09c3a1ae, (-33));
(0x104c390a0ff06e, (-32));
(0x1b68fe4f9cf3a9, (-32));
(0x15b6497a36ed89, (-31));
(0x103f8717b70f0a, (-30));
(0x1707938ca0eeb6, (-30));
(0x1ef89f97f158bc, (-30));
(0x13ca77851e3c40, (-29));
(0x1810eb4fbb8abd, (-29));
(0x1bdf286fc554bd, (-29));
(0x1ec39f7c193d9c, (-29));
(0x10306d4e7c73b4, (-28));
(0x10402f70af606e, (-28));
(0x1f1e25fc82f85e, (-29));
(0x1c697098a41a6c, (-29));
(0x18bab77ef49ddf, (-29));
(0x14819b858c928f, (-29));
(0x102fca113ee7b3, (-29));
(0x184c64e4b9290d, (-30));
(0x1151410741df17, (-30));
(0x1765e95d10d479, (-31));
(0x1de738fca26754, (-32));
(0x12070825699b7b, (-32));
(0x1470f447201b2e, (-33));
(0x15b6497a36ed89, (-34));
(0x157f8634670562, (-35));
(0x13b8bd7e3167c7, (-36));
(0x10a178b878594f, (-37));
(0x19849fc6dd2f79, (-39));
(0x11900f6e355975, (-40));
(0x154247683ef71f, (-42));
(0x15f4c2f298f2ee, (-44));
(0x1266da26a5b98e, (-46));
(0x16b733bfd8c648, (-49));
(0x10000000000000, (-52))];
[(0x16000000000000, (-47));
(0x19360318095470, (-45));
(0x174e90159a6204, (-43));
(0x126e62bfea86cc, (-41));
(0x19beed563d3504, (-40));
(0x10341084498a91, (-38));
(0x12a1fe50eea47f, (-37));
(0x13c530dd7e833c, (-36));
(0x138053f34b4a68, (-35));
(0x11fc9427ed5e10, (-34));
(0x1f2ad0ec60c33b, (-34));
(0x1975ab54a5556b, (-33));
(0x13aad10c56ee71, (-32));
(0x1cce0df24a4000, (-32));
(0x1409742da66c22, (-31));
(0x1a85aade0a5919, (-31));
(0x10b913d068cf58, (-30));
(0x141cbf4dc65af6, (-30));
(0x1716643209c963, (-30));
(0x194fb1f8ffec52, (-30));
(0x1a832147d58929, (-30));
(0x1a898dddfc67b3, (-30));
(0x19622ea7d00a26, (-30));
(0x1732bd1edad804, (-30));
(0x143fc193fff041, (-30));
(0x10df21d5cc132b, (-30));
(0x1ad0ff125dce9d, (-31));
(0x144e737d118e10, (-31));
(0x1d440bfdd673f8, (-32));
(0x1409742da66c22, (-32));
(0x1a046fb18d6319, (-33));
(0x1ff593b40d4377, (-34));
(0x12841f8360f84e, (-34));
(0x142ac36bc623f9, (-35));
(0x148e602da19012, (-36));
(0x138053f34b4a68, (-37));
(0x11193f04c07180, (-38));
(0x1b7576c81c50bc, (-40));
(0x13f14f67bcf950, (-41));
(0x19beed563d3504, (-43));
(0x1cc548f9a00a9c, (-45));
(0x1aa2edcf8bddbb, (-47));
(0x12c2fc595456a6, (-49));
(0x10000000000000, (-52))];
[(0x10000000000000, (-52));
(0x1ad5336963eefb, (-50));
(0x1f76da19a7630c, (-48));
(0x1dc7cb59453c4c, (-46));
(0x181ffab1bd1867, (-44));
(0x1145540bf0b7b7, (-42));
(0x164be909763d0f, (-41));
(0x1a507090ff6841, (-40));
(0x1cacdd6fc152a6, (-39));
(0x1d121f822b5467, (-38));
(0x1b9437c632a46b, (-37));
(0x1898e2a72485d2, (-36));
(0x14b39e6569240a, (-35));
(0x107dd27283d951, (-34));
(0x18eecb851e5148, (-34));
(0x11ebec47f526e4, (-33));
(0x188a45b2e5a2a9, (-33));
(0x10069eba9640db, (-32));
(0x13fcddbe5b1da6, (-32));
(0x17d3b597c2cd84, (-32));
(0x1b2abd1b49a3b7, (-32));
(0x1da43df597aae1, (-32));
(0x1ef5a90a258fcf, (-32));
(0x1ef5a90a258fcf, (-32));
(0x1da43df597aae1, (-32));
(0x1b2abd1b49a3b7, (-32));
(0x17d3b597c2cd84, (-32));
(0x13fcddbe5b1da6, (-32));
(0x10069eba9640db, (-32));
(0x188a45b2e5a2a9, (-33));
(0x11ebec47f526e4, (-33));
(0x18eecb851e5148, (-34));
(0x107dd27283d951, (-34));
(0x14b39e6569240a, (-35));
(0x1898e2a72485d2, (-36));
(0x1b9437c632a46b, (-37));
(0x1d121f822b5467, (-38));
(0x1cacdd6fc152a6, (-39));
(0x1a507090ff6841, (-40));
(0x164be909763d0f, (-41));
(0x1145540bf0b7b7, (-42));
(0x181ffab1bd1867, (-44));
(0x1dc7cb59453c4c, (-46));
(0x1f76da19a7630c, (-48));
(0x1ad5336963eefb, (-50));
(0x10000000000000, (-52))]];
   [[(0x10000000000000, (-52))];
[(0x11400000000000, (-44));
(0x177ea35d632e43, (-48));
(0x10000000000000, (-52))];
[(0x18b50000000000, (-39));
(0x10db2eb841c5d9, (-41));
(0x1137fe243d3a6b, (-44));
(0x1773bb6fa96c50, (-48));
(0x10000000000000, (-52))];
[(0x1c1ab000000000, (-35));
(0x1cddb3689109fc, (-37));
(0x189df541646dcc, (-39));
(0x10c3aa9575258f, (-41));
(0x111ff88688a56d, (-44));
(0x175ddc4efa914a, (-48));
(0x10000000000000, (-52))];
[(0x10f01580000000, (-31));
(0x17530d112c3ad4, (-33));
(0x1bf30c0b42a33f, (-35));
(0x1c9a36ab1d7f6d, (-37));
(0x18591504b01444, (-39));
(0x1094c2f02ec803, (-41));
(0x10f7ef0709e60b, (-44));
(0x173ce704fb7b23, (-48));
(0x10000000000000, (-52))];
[(0x1907c4c0000000, (-29));
(0x15b43d7063a0e1, (-30));
(0x10cfd8518ff1d0, (-31));
(0x17060082c4d654, (-33));
(0x1b7cfd91d7f2c1, (-35));
(0x1c1457488d4701, (-37));
(0x17e71f472b15e0, (-39));
(0x104eb9545390ba, (-41));
(0x10bfe16eb26fbd, (-44));
(0x1710ac0b5e5e31, (-48));
(0x10000000000000, (-52))];
[(0x18bef3f8000000, (-27));
(0x19fe8f86b48d56, (-28));
(0x18cb426c9e5545, (-29));
(0x1556d9e5a2a184, (-30));
(0x1070312a48e5fe, (-31));
(0x166e035fffbeff, (-33));
(0x1abb18c20f3ed9, (-35));
(0x1b4e46e42c366e, (-37));
(0x174954040bcbc8, (-39));
(0x1fe3e1a5625092, (-42));
(0x1077cf6c0be82a, (-44));
(0x16d8e9eb365353, (-48));
(0x10000000000000, (-52))];
[(0x1155f2a6000000, (-25));
(0x157e700fe3e1f4, (-26));
(0x1875b6cea4bd4e, (-27));
(0x1973837f090479, (-28));
(0x18186d6ca1a96d, (-29));
(0x149fafbdc657ec, (-30));
(0x1fa88ea35c22d5, (-32));
(0x158f3eeb9f8adf, (-33));
(0x19b19c936c2b1c, (-35));
(0x1a4b498929e231, (-37));
(0x1681733409f558, (-39));
(0x1efddddcb11e6e, (-42));
(0x101fb88e43f5cd, (-44));
(0x16954b41cd4293, (-48));
(0x10000000000000, (-52))];
[(0x11e9e123000000, (-24));
(0x19bd2fa3f40a97, (-25));
(0x11189c685a9116, (-25));
(0x14f3a753fbc7d6, (-26));
(0x179e240ae08cc6, (-27));
(0x18646d67546729, (-28));
(0x16f735c645272f, (-29));
(0x1395cea3867f08, (-30));
(0x1e027709e6ab79, (-32));
(0x146fcc7e1d0a1e, (-33));
(0x18665ec61aed1f, (-35));
(0x190fade0d4bf9c, (-37));
(0x1591bcccb013e2, (-39));
(0x1decb9cef539c9, (-42));
(0x1f6f387bbedf66, (-45));
(0x1645640568c1c3, (-48));
(0x10000000000000, (-52))];
[(0x1c198950000000, (-24));
(0x171617dccbe5b3, (-24));
(0x119f4eacdbdbae, (-24));
(0x18f87310a2bc91, (-25));
(0x1064d94393fbb5, (-25));
(0x13e6c7f45c8fb3, (-26));
(0x16445b3036452c, (-27));
(0x16dedd8aa76883, (-28));
(0x157459bfff3abe, (-29));
(0x12436638e1e63e, (-30));
(0x1bfbef7ffefeb6, (-32));
(0x13178a30f69a07, (-33));
(0x16e0afe2147bcf, (-35));
(0x17a0c2a788c12a, (-37));
(0x147cf0bf4e8457, (-39));
(0x1cb212e35475e5, (-42));
(0x1e7ef3644c3931, (-45));
(0x15e8add236a58e, (-48));
(0x10000000000000, (-52))];
[(0x1114e9b4000000, (-23));
(0x1fc9da5259ad6d, (-24));
(0x1b915e69c192bd, (-24));
(0x1647ef10a56e32, (-24));
(0x10c5c3f222c1f7, (-24));
(0x177ddb30c7cfbd, (-25));
(0x1e8e031382efa8, (-26));
(0x12687b32b6735b, (-26));
(0x147b90a7fa647c, (-27));
(0x14f612a14136fd, (-28));
(0x13a0b1e7b57589, (-29));
(0x10b54dec216e9d, (-30));
(0x19a5dafa684867, (-32));
(0x118fe1fa51d751, (-33));
(0x15293735d46c65, (-35));
(0x1604c93aba1c93, (-37));
(0x13464ef760b8c3, (-39));
(0x1b4fd5d22dee1c, (-42));
(0x1d6e9fc396fea8, (-45));
(0x157e82ecdabe8c, (-48));
(0x10000000000000, (-52))];
[(0x10579bfc000000, (-23));
(0x1119de384bfc4c, (-23));
(0x10b536c53d0f20, (-23));
(0x1e8116aa951197, (-24));
(0x1a06214e6a7603, (-24));
(0x14be12cc4801eb, (-24));
(0x1ede216216c83d, (-25));
(0x15699ce33be663, (-25));
(0x1ba4bb53f03a0e, (-26));
(0x108ffc7aacb2ea, (-26));
(0x125ca257733a12, (-27));
(0x12c1bc1005db97, (-28));
(0x1190423d631627, (-29));
(0x1df4d83d9a4ebc, (-31));
(0x17138857e1062b, (-32));
(0x1fc707fedcf9e5, (-34));
(0x1349c6d46e9f1a, (-35));
(0x1442e50d6757e0, (-37));
(0x11f1975814427d, (-39));
(0x19c84443e9e354, (-42));
(0x1c3e3ad8e1ebc7, (-45));
(0x1506177f5491ba, (-48));
(0x10000000000000, (-52))];
[(0x18de5cac000000, (-24));
(0x1d1f850f7ec6cb, (-24));
(0x1fdc53b446e82b, (-24));
(0x104e2226b32488, (-23));
(0x1f41ef40a30274, (-24));
(0x1c11f30ae8f2b7, (-24));
(0x179dc8d89ba85c, (-24));
(0x129b1a385f4932, (-24));
(0x1b6d3a242745e5, (-25));
(0x12e253ffc42fcd, (-25));
(0x183eb44f10778d, (-26));
(0x1cf2555562d466, (-27));
(0x100442f2f57ed6, (-27));
(0x105c7303bd6ceb, (-28));
(0x1eb23a36b0acbb, (-30));
(0x1a4605905ede55, (-31));
(0x1459f43b79e536, (-32));
(0x1c3c2a38f85f3c, (-34));
(0x114d2792b1f7d7, (-35));
(0x126307c008cf17, (-37));
(0x108309b8673ecd, (-39));
(0x181dfbefbea44c, (-42));
(0x1aedc0f21ee5fa, (-45));
(0x147e7054af0989, (-48));
(0x10000000000000, (-52))];
[(0x1e4d2ad0000000, (-25));
(0x13cb8f6725fdb1, (-24));
(0x1825ca5912552e, (-24));
(0x1b90e826c28c9d, (-24));
(0x1d7f4a9c625d83, (-24));
(0x1d9eb09c547dc2, (-24));
(0x1bededeaaab0d9, (-24));
(0x18bc1578bc554c, (-24));
(0x1491cecfc85b88, (-24));
(0x100d6e58c74b28, (-24));
(0x177c9ea3a65d0d, (-25));
(0x10150fd80ca745, (-25));
(0x14929032316c91, (-26));
(0x18847994a92de2, (-27));
(0x1b21c1e1bb9e06, (-28));
(0x1bc408bc71515c, (-29));
(0x1a244e9fe37727, (-30));
(0x167fd22685bab7, (-31));
(0x118ef553fcc1c1, (-32));
(0x1897a5bab7b06f, (-34));
(0x1e7dba0596e88e, (-36));
(0x106dd984638c2b, (-37));
(0x1dfecbb9d01e06, (-40));
(0x1653ffa446f065, (-42));
(0x197d2d0524285b, (-45));
(0x13e655eefe1367, (-48));
(0x10000000000000, (-52))];
[(0x1da8fe90000000, (-26));
(0x15965fad866c76, (-25));
(0x1d4a30901509b4, (-25));
(0x12945d510c5c62, (-24));
(0x1617ee0268cd5b, (-24));
(0x18ab4dd09a1278, (-24));
(0x19e5d0e5df1ece, (-24));
(0x199520265be0e2, (-24));
(0x17ca00d5b4e1c0, (-24));
(0x14d30b4575b3f0, (-24));
(0x112778aaa6b54e, (-24));
(0x1a933cf88e1438, (-25));
(0x13559444453586, (-25));
(0x1a619fdd80ea51, (-26));
(0x10d7ccda356aad, (-26));
(0x1412a097d6f511, (-27));
(0x1640e82c947714, (-28));
(0x16db5297d9ebbf, (-29));
(0x15a39e4ca82590, (-30));
(0x12c3755377f0e4, (-31));
(0x1d90b31fdb5f83, (-33));
(0x14f25cccaf3959, (-34));
(0x1a55c2dae413f5, (-36));
(0x1cd93ab4c95c66, (-38));
(0x1ad7d6da9fcb94, (-40));
(0x146dc2d0298327, (-42));
(0x17ec780d89af08, (-45));
(0x133c42213ee0c9, (-48));
(0x10000000000000, (-52))];
[(0x1751aa20000000, (-27));
(0x12ea098ed1e355, (-26));
(0x1c840a5e5dcb45, (-26));
(0x140fc590213d63, (-25));
(0x1a6e3333c50954, (-25));
(0x1057dbed20f5c4, (-24));
(0x130244bdf99526, (-24));
(0x14d2bae6b3591f, (-24));
(0x1581351ceb9bf1, (-24));
(0x14f30b059a3040, (-24));
(0x13416a14176e14, (-24));
(0x10b25826e28f8c, (-24));
(0x1b4da9ab5cbd61, (-25));
(0x150856d1d99522, (-25));
(0x1e7e0696d901fc, (-26));
(0x14c3f1be6bd87c, (-26));
(0x1a83d935424482, (-27));
(0x1fa82cdec3240f, (-28));
(0x119cbf34754bd1, (-28));
(0x12309d1ff5f227, (-29));
(0x1159936a9ddb4a, (-30));
(0x1e6019889d099e, (-32));
(0x1835f77a8cc00b, (-33));
(0x1164c0301f0b82, (-34));
(0x163ab38da802b6, (-36));
(0x18d2211c326fd7, (-38));
(0x179cb3c513e1cf, (-40));
(0x126f3863ea3216, (-42));
(0x163b98035e266b, (-45));
(0x127e451bb944c3, (-48));
(0x10000000000000, (-52))];
[(0x1d563920000000, (-29));
(0x1a92ec2c415f10, (-28));
(0x1645d42af3e109, (-27));
(0x115e5c04f23840, (-26));
(0x194fb37c1c8f63, (-26));
(0x114a7a82606de3, (-25));
(0x1634bebce8e296, (-25));
(0x1adc6f685c03dd, (-25));
(0x1ea69f49f4f12d, (-25));
(0x1083e28656b99d, (-24));
(0x10d1eb6001f658, (-24));
(0x10323abb52c672, (-24));
(0x1d7dff56ed241e, (-25));
(0x196200cfda4b9c, (-25));
(0x14a3b03bbcedf2, (-25));
(0x1faeb34798d3ec, (-26));
(0x16eca4c41fd3ae, (-26));
(0x1f392767f35dd6, (-27));
(0x13f8703d0a2ee2, (-27));
(0x17ee2e409abe8f, (-28));
(0x1ac6599173cab7, (-29));
(0x1bdc2b8de9a7ee, (-30));
(0x1ad3aa539d3972, (-31));
(0x17c21b4d94e386, (-32));
(0x1333b4265bd3dc, (-33));
(0x1c0bd8463c932d, (-35));
(0x12448337a4d865, (-36));
(0x14da89553ab151, (-38));
(0x1459e0cc504019, (-40));
(0x105ce64d4a1e0f, (-42));
(0x146a7e15678799, (-45));
(0x11a9dc8f6df103, (-48));
(0x10000000000000, (-52))];
[(0x1d48d600000000, (-31));
(0x1dc05e2ceff0ce, (-30));
(0x1bcaaaacf7e103, (-29));
(0x180b794cf6255a, (-28));
(0x13601f228f2efc, (-27));
(0x1d35aa2987e49f, (-27));
(0x14aaa75faffb2d, (-26));
(0x1b86387eb10eac, (-26));
(0x1149916abb58e6, (-25));
(0x1483f6d0eaec38, (-25));
(0x170780f6f95605, (-25));
(0x18796004dcc820, (-25));
(0x18a33e90ab9340, (-25));
(0x177ffb60b93ee0, (-25));
(0x153c9e97f130ed, (-25));
(0x122d5114bd8f23, (-25));
(0x1d73e3324c2a76, (-26));
(0x16908a65e7d0b8, (-26));
(0x1053b8617291f9, (-26));
(0x164729f0dd512b, (-27));
(0x1c9a2fb858d8ad, (-28));
(0x113b5ab154a801, (-28));
(0x136cab04fb0704, (-29));
(0x14678be250199b, (-30));
(0x13e0a7cfb855dc, (-31));
(0x11d9bf5f8f7feb, (-32));
(0x1d54dc87e8eb1f, (-34));
(0x15d58069b4edfc, (-35));
(0x1d143bc1953475, (-37));
(0x1106e59254d999, (-38));
(0x111cdb281b3041, (-40));
(0x1c77fee03eec8c, (-43));
(0x1279137606bf37, (-45));
(0x10bbb307acafda, (-48));
(0x10000000000000, (-52))];
[(0x16deac00000000, (-33));
(0x1a3f0b5e77fe74, (-32));
(0x1b72f1e13e24ec, (-31));
(0x1a6afb2488b626, (-30));
(0x17920d5a82de8a, (-29));
(0x139b207fffd732, (-28));
(0x1e8ad6d5d950fa, (-28));
(0x165acde73ce819, (-27));
(0x1ed5f9a8025bbd, (-27));
(0x1415a74c66f2f9, (-26));
(0x18c072f9b36637, (-26));
(0x1ce5639abdac4c, (-26));
(0x1ffd0c1f665d44, (-26));
(0x10cd192fd92b70, (-25));
(0x10c0f43edebfc8, (-25));
(0x1fb8f4e88dc263, (-26));
(0x1c82712d45cf5c, (-26));
(0x185021e09b89d8, (-26));
(0x13a96aa86a98a7, (-26));
(0x1e2083059f5755, (-27));
(0x15d6aa12498282, (-27));
(0x1de8445fe4bf2c, (-28));
(0x134e19622fe003, (-28));
(0x176f7b176b5048, (-29));
(0x1aab57fc5c67a7, (-30));
(0x1c57ad38a27fcd, (-31));
(0x1bff5e7517fff1, (-32));
(0x198ee1fd8eae37, (-33));
(0x15673e83fe3846, (-34));
(0x1049efe62f4b5d, (-35));
(0x164137fc7d50dd, (-37));
(0x1ad71ab1f79161, (-39));
(0x1be83be9f626bf, (-41));
(0x18250e0fa3c50b, (-43));
(0x1067332e34b140, (-45));
(0x1f5e67fdcbdf43, (-49));
(0x10000000000000, (-52))];
[(0x1b53a000000000, (-36));
(0x11ea1160e35ceb, (-34));
(0x1521583bcb57d8, (-33));
(0x16badcf74b6000, (-32));
(0x1684fe958a5cf5, (-31));
(0x14b37f958439c4, (-30));
(0x11c1e0f42e6313, (-29));
(0x1c8e0c4c2706c0, (-29));
(0x1598c1148b6303, (-28));
(0x1ed147d6781457, (-28));
(0x14ca1df4347b37, (-27));
(0x1a91c4ac7d2756, (-27));
(0x101b03777f107b, (-26));
(0x128ad2a4126d7b, (-26));
(0x144a11dbe5566a, (-26));
(0x151c9879b6f5a5, (-26));
(0x14e543fcdb75a2, (-26));
(0x13ac674d9cf91d, (-26));
(0x119dcff4bc9d48, (-26));
(0x1dfe03af4d4d05, (-27));
(0x18412972590511, (-27));
(0x129dac053deb85, (-27));
(0x1b165d9d0f79d7, (-28));
(0x12a6857970e169, (-28));
(0x18420d79afbc46, (-29));
(0x1dba95da037087, (-30));
(0x111d07ef1e10db, (-30));
(0x1271236c0cd4f7, (-31));
(0x1284c4dae590ab, (-32));
(0x113b35ee48a586, (-33));
(0x1d818425c8a27a, (-35));
(0x17092e7df8c2c2, (-36));
(0x1034d2c8097ad1, (-37));
(0x14387d4619c79b, (-39));
(0x15de3fee130bbc, (-41));
(0x13cf04036e6766, (-43));
(0x1c693a453faf1e, (-46));
(0x1cfb95bb9dcc0c, (-49));
(0x10000000000000, (-52))];
[(0x181a8000000000, (-39));
(0x1260f64ee282f2, (-37));
(0x18bb20c7ab31f7, (-36));
(0x1df5806b69dbc4, (-35));
(0x108fa60a7b8355, (-33));
(0x10e0693b9b153d, (-32));
(0x1ff0bcd36e1227, (-32));
(0x1c3a807bab7425, (-31));
(0x1767e6197eee77, (-30));
(0x1245fedfbdf7c6, (-29));
(0x1af1cbddbe9c09, (-29));
(0x12cdb7cb322094, (-28));
(0x18e3bd5670e1d3, (-28));
(0x1f4ac99a14f2be, (-28));
(0x12b4c4e03a6e70, (-27));
(0x15499120a5d098, (-27));
(0x1712b79d12ee35, (-27));
(0x17d46e6beb0475, (-27));
(0x1774b5d4a7de5b, (-27));
(0x1600eae40ffb43, (-27));
(0x13aacf8c7e37ef, (-27));
(0x10bdea5f9cdb01, (-27));
(0x1b2093f5f0e438, (-28));
(0x14e59be87b626f, (-28));
(0x1e93285976d21a, (-29));
(0x15359ae933be03, (-29));
(0x1bd96bb9b8184c, (-30));
(0x1143bead4959c9, (-30));
(0x1427c32eeeeab2, (-31));
(0x16143c8ecc3377, (-32));
(0x16993fa13482de, (-33));
(0x157f8634670562, (-34));
(0x12e1ccfce77962, (-35));
(0x1e5d0b46a2e87e, (-37));
(0x16196b1f6ec074, (-38));
(0x1cae0922a72a87, (-40));
(0x103c9bf4342f4d, (-41));
(0x1f0cf508b856d1, (-44));
(0x17c1af19233fd9, (-46));
(0x1a3ad12a1da160, (-49));
(0x10000000000000, (-52))];
[(0x1d900000000000, (-43));
(0x1b047413c12faa, (-41));
(0x151d97073877ff, (-39));
(0x1d246c43d8db55, (-38));
(0x121dad57b0119c, (-36));
(0x1491ee1ea51976, (-35));
(0x158b4e0d93ee33, (-34));
(0x14f8341e564f94, (-33));
(0x1313e4ad6c6f63, (-32));
(0x104c390a0ff06e, (-31));
(0x1a3e427b969f2f, (-31));
(0x13f8e163528912, (-30));
(0x1cce0df24a4000, (-30));
(0x13b8ab83522676, (-29));
(0x19ae1136adcd8e, (-29));
(0x1fd6edb41c6253, (-29));
(0x12d0364a75e943, (-28));
(0x15350a892f0973, (-28));
(0x16d0b7e45e2fc5, (-28));
(0x176f0835341ce2, (-28));
(0x16fb63f746dfc3, (-28));
(0x15851a1f1b5a42, (-28));
(0x133c245cdf7e0f, (-28));
(0x1067528ba47a9e, (-28));
(0x1aad25c80f9a51, (-29));
(0x14a9d5c0be3db8, (-29));
(0x1e75ad3b9a5518, (-30));
(0x1554b878aa5893, (-30));
(0x1c5624a6443244, (-31));
(0x11d016c9316d10, (-31));
(0x15239ac042e084, (-32));
(0x179a7ebb32ff16, (-33));
(0x18b311654277b3, (-34));
(0x181aaeb6ae2982, (-35));
(0x15cd97a1a07f4d, (-36));
(0x1222c54aab8318, (-37));
(0x1b7576c81c50bc, (-39));
(0x12a79494049fe6, (-40));
(0x164be909763d0f, (-42));
(0x16bec4e3c8793c, (-44));
(0x12d5b5fd8552f4, (-46));
(0x16fa6ea162d0f0, (-49));
(0x10000000000000, (-52))];
[(0x16800000000000, (-47));
(0x1a16bafcb12e2d, (-45));
(0x1869120133fbab, (-43));
(0x138b1d72956f92, (-41));
(0x1ba5941fdfca32, (-40));
(0x11a07fd29d6db0, (-38));
(0x148aa1ae4027a6, (-37));
(0x16188430782b55, (-36));
(0x161a955b7a5a60, (-35));
(0x14af29d4a5fb50, (-34));
(0x12309c09c3a1ae, (-33));
(0x1e2d749a1447fe, (-33));
(0x17af215d1159e3, (-32));
(0x11a15150079bc5, (-31));
(0x18f21e567b38cd, (-31));
(0x10cd2d8375d476, (-30));
(0x1593523de33ca9, (-30));
(0x1a70fa4b31d108, (-30));
(0x1ef3c13f80b3a6, (-30));
(0x1150cb2587570a, (-29));
(0x1286a6b97ecacd, (-29));
(0x12f574b676fbad, (-29));
(0x128f4435c37667, (-29));
(0x11610051ed115f, (-29));
(0x1f1fa77512736d, (-30));
(0x1aa3aeafe3e85f, (-30));
(0x15c7f9c4640ca4, (-30));
(0x10ff7c54e92af3, (-30));
(0x194b9e36e71afb, (-31));
(0x11ebec47f526e4, (-31));
(0x18241d5bf31e32, (-32));
(0x1eda4e4c0d5099, (-33));
(0x12a903038208c2, (-33));
(0x154d433f95d877, (-34));
(0x16de05fda57acd, (-35));
(0x16fb83cfd4de59, (-36));
(0x1581a613d0fdfc, (-37));
(0x129b61d7f967dc, (-38));
(0x1d7edb07558e43, (-40));
(0x1526ffc989b6d3, (-41));
(0x1af8f46a0609f2, (-43));
(0x1dc7cb59453c4c, (-45));
(0x1b3fb4d7ab24d7, (-47));
(0x12f9422c23c47d, (-49));
(0x10000000000000, (-52))];
[(0x10000000000000, (-52));
(0x1b211b1c70d023, (-50));
(0x1015f0f4a885a2, (-47));
(0x1ecd41d33eeffd, (-46));
(0x193f62d811dc82, (-44));
(0x124b2b0c6e1093, (-42));
(0x17e90d4760baf4, (-41));
(0x1c940e6aa40b5d, (-40));
(0x1f8cb51d8a8b12, (-39));
(0x1035039953b320, (-37));
(0x1f2cc9b316cc2c, (-37));
(0x1c32e4ee531c20, (-36));
(0x18144df429ee2e, (-35));
(0x137880cb645d89, (-34));
(0x1de4b3ce51ba78, (-34));
(0x15d4be5da3a97a, (-33));
(0x1e6333aebc0ec5, (-33));
(0x142f0861a9d5b1, (-32));
(0x199e7dd2ba18af, (-32));
(0x1f19b4eab8570a, (-32));
(0x1211556844f868, (-31));
(0x141a989cd49488, (-31));
(0x156e4a385b8763, (-31));
(0x15e449c4495469, (-31));
(0x156e4a385b8763, (-31));
(0x141a989cd49488, (-31));
(0x1211556844f868, (-31));
(0x1f19b4eab8570a, (-32));
(0x199e7dd2ba18af, (-32));
(0x142f0861a9d5b1, (-32));
(0x1e6333aebc0ec5, (-33));
(0x15d4be5da3a97a, (-33));
(0x1de4b3ce51ba78, (-34));
(0x137880cb645d89, (-34));
(0x18144df429ee2e, (-35));
(0x1c32e4ee531c20, (-36));
(0x1f2cc9b316cc2c, (-37));
(0x1035039953b320, (-37));
(0x1f8cb51d8a8b12, (-39));
(0x1c940e6aa40b5d, (-40));
(0x17e90d4760baf4, (-41));
(0x124b2b0c6e1093, (-42));
(0x193f62d811dc82, (-44));
(0x1ecd41d33eeffd, (-46));
(0x1015f0f4a885a2, (-47));
(0x1b211b1c70d023, (-50));
(0x10000000000000, (-52))]];
   [[(0x18000000000000, (-48));
(0x10000000000000, (-52))];
[(0x11f80000000000, (-41));
(0x11fbff8e1f93d5, (-44));
(0x17faaa12d4c51c, (-48));
(0x10000000000000, (-52))];
[(0x100f4000000000, (-36));
(0x1adbfffb3c042b, (-39));
(0x11ebfbfb88cfe8, (-41));
(0x11ebfbfb88cfe8, (-44));
(0x17eaa126f15283, (-48));
(0x10000000000000, (-52))];
[(0x1b19bc00000000, (-33));
(0x1fde02414140fe, (-35));
(0x1ffa7bce8738e8, (-37));
(0x1aabffd4cef583, (-39));
(0x11c7ffe334a3ad, (-41));
(0x11cbf4c3139a1a, (-44));
(0x17cfcf9f0d5806, (-48));
(0x10000000000000, (-52))];
[(0x1a590500000000, (-30));
(0x140a86151b3689, (-31));
(0x1aeec69e64623b, (-33));
(0x1f87fb511fdfcd, (-35));
(0x1f8eff6dfc61ec, (-37));
(0x1a4c7f8652519a, (-39));
(0x118c3bb9641a9a, (-41));
(0x119be9bd2994d5, (-44));
(0x17aa10d193c22c, (-48));
(0x10000000000000, (-52))];
[(0x107f4d50000000, (-27));
(0x1eec6c65b7c2c1, (-29));
(0x1a2299543d3c4a, (-30));
(0x13c19e0e54ebdc, (-31));
(0x1a6f0705d88e34, (-33));
(0x1eddba3a96e786, (-35));
(0x1eddba3a96e786, (-37));
(0x19be7f0c5f2652, (-39));
(0x1138fff89163cd, (-41));
(0x115bdaabbd2297, (-44));
(0x17793008ab5d3e, (-48));
(0x10000000000000, (-52))];
[(0x1c8d8fa8000000, (-26));
(0x1ff2639ff9c31f, (-27));
(0x1054eedfe44437, (-27));
(0x1e5dc602fda232, (-29));
(0x19815b22809a17, (-30));
(0x13321c0ef6ebeb, (-31));
(0x199dd757a5a650, (-33));
(0x1de2d090ebecb3, (-35));
(0x1de976f6d15a41, (-37));
(0x19037e6181a81b, (-39));
(0x10cebe49a08274, (-41));
(0x110bc736c5c9ce, (-44));
(0x173ce704fb7b23, (-48));
(0x10000000000000, (-52))];
[(0x11e9e123000000, (-24));
(0x1768ebdf9890c8, (-25));
(0x1c350a28cd02ab, (-26));
(0x1f3e4adecf2444, (-27));
(0x1fafbfc41b1d3b, (-28));
(0x1d468d3c436355, (-29));
(0x187b424c681eca, (-30));
(0x126087a10a53a4, (-31));
(0x1880b4d6b86f85, (-33));
(0x1c9c84b08f0e2b, (-35));
(0x1cb6157ad93eb7, (-37));
(0x181d7d7dbff7cd, (-39));
(0x104e0a8c8f4b2e, (-41));
(0x10abaee6ff415a, (-44));
(0x16f4dbe9105e51, (-48));
(0x10000000000000, (-52))];
[(0x10dc1f30000000, (-23));
(0x195569b3cea83d, (-24));
(0x11a824f57668ee, (-24));
(0x16cb7b35ce16c8, (-25));
(0x1b30cbcdc11eca, (-26));
(0x1ddfd493e04537, (-27));
(0x1e1c49d9c92270, (-28));
(0x1bb298180b820f, (-29));
(0x1719f6dd0bf565, (-30));
(0x11537925c8f80c, (-31));
(0x171f1aca9c8748, (-33));
(0x1b11b9be7af0e6, (-35));
(0x1b4881c136c1ec, (-37));
(0x170efc55ddf7fa, (-39));
(0x1f6f387bbedf66, (-42));
(0x103b911e4e2516, (-44));
(0x16a09e667f3bcc, (-48));
(0x10000000000000, (-52))];
[(0x186704b8000000, (-23));
(0x14d6de8e592a6c, (-23));
(0x1093dcd299a04f, (-23));
(0x188d6dd0ff97e1, (-24));
(0x10e7b570b8d6e5, (-24));
(0x159aff6bd8ea4c, (-25));
(0x19905d624dd672, (-26));
(0x1be9c650c3cdf9, (-27));
(0x1c02b763ddd2c2, (-28));
(0x19b2deb6bad0c8, (-29));
(0x156a6442f10352, (-30));
(0x10135e1e9a0533, (-31));
(0x15824f2efea698, (-33));
(0x194acfa741e147, (-35));
(0x19a6a832dece0b, (-37));
(0x15dafada3fe898, (-39));
(0x1e18a08ef11043, (-42));
(0x1f76da19a7630c, (-45));
(0x163fa3f3c02961, (-48));
(0x10000000000000, (-52))];
[(0x1ba7f448000000, (-23));
(0x1a9eb14bfb1303, (-23));
(0x17edf3fb583805, (-23));
(0x1417e5b20b96cc, (-23));
(0x1f8294a29e747e, (-24));
(0x170d375303447e, (-24));
(0x1f6cceeaf6329a, (-25));
(0x13eb53f4de0fc5, (-25));
(0x176c3efd6f0ec2, (-26));
(0x19769b514a6910, (-27));
(0x197c45c924920e, (-28));
(0x175c954db6db37, (-29));
(0x137c26b669e9ff, (-30));
(0x1d5457c75c50cf, (-32));
(0x13b521d7cc9d15, (-33));
(0x17517b1da71a6b, (-35));
(0x17d76709d399f8, (-37));
(0x1484f8f5399d16, (-39));
(0x1c9a56a2f99a7a, (-42));
(0x1e56834255e391, (-45));
(0x15d142b6dbadc5, (-48));
(0x10000000000000, (-52))];
[(0x18de5cac000000, (-23));
(0x1ad092715db80d, (-23));
(0x1b0a0464af8063, (-23));
(0x19858d5ea4d417, (-23));
(0x168ee61b58a800, (-23));
(0x12ab9cc393833a, (-23));
(0x1cec8b2b2bd5dc, (-24));
(0x14f28d0060c113, (-24));
(0x1c537dffa647b3, (-25));
(0x11d802bd5c9552, (-25));
(0x14e3f28adff465, (-26));
(0x16a6a53c3ecd11, (-27));
(0x16a6a53c3ecd11, (-28));
(0x14c80b8b7c64a6, (-29));
(0x1160d85f60d8a9, (-30));
(0x1a4605905ede55, (-32));
(0x11c39ee6c604f1, (-33));
(0x153095988e77ac, (-35));
(0x15e27c94237716, (-37));
(0x1310f688761228, (-39));
(0x1af6b95e9d3ac8, (-42));
(0x1d161ae2ba4ba9, (-45));
(0x1554aaa7ffeaa9, (-48));
(0x10000000000000, (-52))];
[(0x11e7c7d8000000, (-23));
(0x15896e64844eb2, (-23));
(0x183b5e0f0cd4ed, (-23));
(0x198b9c37c52438, (-23));
(0x19428a274802f4, (-23));
(0x177173707a41d7, (-23));
(0x146c8bd23f60ae, (-23));
(0x10b303e7da9213, (-23));
(0x199c624278ea7e, (-24));
(0x1265fb7a3a9de0, (-24));
(0x18b99f0d87cb6d, (-25));
(0x1f03a492579a6d, (-26));
(0x121b7be373f234, (-26));
(0x139dc636684663, (-27));
(0x13a2239e1682b4, (-28));
(0x120f6024989d7e, (-29));
(0x1e568a79935c8d, (-31));
(0x17138857e1062b, (-32));
(0x1f756b4fef47b3, (-34));
(0x12f3e54fe9d56e, (-35));
(0x13d072107be4f6, (-37));
(0x11837368e67daf, (-39));
(0x1930841fadb930, (-42));
(0x1bb59d310a1ed3, (-45));
(0x14c8dc2e42397f, (-48));
(0x10000000000000, (-52))];
[(0x14c31898000000, (-24));
(0x1bc96846f3035b, (-24));
(0x11612bee83b8d4, (-23));
(0x145e827221d254, (-23));
(0x166828e11f3a96, (-23));
(0x1729e340dd139b, (-23));
(0x1685767613fbe9, (-23));
(0x149a18f7ed6c8d, (-23));
(0x11bb386dc3768a, (-23));
(0x1cb4564acf4da1, (-24));
(0x15d56e36156c9a, (-24));
(0x1f2cf4e393a609, (-25));
(0x14db357db7607b, (-25));
(0x1a17cfe9505378, (-26));
(0x1e711d3addb6b7, (-27));
(0x1080f0730ffe6e, (-27));
(0x108faf9ff3c5af, (-28));
(0x1e9a3412c01edb, (-30));
(0x19dd1c3f97106a, (-31));
(0x13d53cf4ef1d6f, (-32));
(0x1b4faa510ca358, (-34));
(0x10a7dd380da30b, (-35));
(0x11aa82c836cd44, (-37));
(0x1fc2deb06efd22, (-40));
(0x174ad84f3484e9, (-42));
(0x1a35050489f4ad, (-45));
(0x142c9b0eec7da3, (-48));
(0x10000000000000, (-52))];
[(0x136eb870000000, (-25));
(0x1ce8bc47f4b636, (-25));
(0x140fc590213d63, (-24));
(0x1a0f902c900b2a, (-24));
(0x1fc3f5d9f6fbd3, (-24));
(0x123318ef183dd2, (-23));
(0x13a1dc4b0d801f, (-23));
(0x13f49dc7c13568, (-23));
(0x131fc41ee02e3a, (-23));
(0x114848e86f8113, (-23));
(0x1d733c19aebf35, (-24));
(0x17a539bbea21a7, (-24));
(0x11dfcef2a6c056, (-24));
(0x1969057db4d6fc, (-25));
(0x10f4734a778cb5, (-25));
(0x1531901d156fe3, (-26));
(0x18bf5342c66213, (-27));
(0x1ae73982454110, (-28));
(0x1b1dab82296f3e, (-29));
(0x193575c842fb66, (-30));
(0x157a88696031e0, (-31));
(0x10a3252e480ea1, (-32));
(0x173100402964ae, (-34));
(0x1cb2a9f4c81549, (-36));
(0x1ef4fddd2d605b, (-38));
(0x1c60d3f3e2bfff, (-40));
(0x15494943dd6d5d, (-42));
(0x18944b2fe2ed72, (-45));
(0x137e5bd40f95a1, (-48));
(0x10000000000000, (-52))];
[(0x1d563920000000, (-27));
(0x18456c8234cd33, (-26));
(0x12ad20f7c8e129, (-25));
(0x1ad8c2ca05a0da, (-25));
(0x12155273b9fbc7, (-24));
(0x16e3b37aefc77a, (-24));
(0x1b470d8da23569, (-24));
(0x1ea69f49f4f12d, (-24));
(0x10414cc21f3c7b, (-23));
(0x10493045be9dfe, (-23));
(0x1ed62f8558ee4c, (-24));
(0x1b96603b439b96, (-24));
(0x1750cc0b1383cd, (-24));
(0x129aa701e7fc71, (-24));
(0x1c00e9fb1ad82f, (-25));
(0x13da64fb3d6797, (-25));
(0x1a7886a451df75, (-26));
(0x108f029006f80a, (-26));
(0x1362c6077f3d01, (-27));
(0x152ad6e1106f62, (-28));
(0x1577b4c844429a, (-29));
(0x141ebfbeb5eb15, (-30));
(0x11510f14f96e9e, (-31));
(0x1b27dad7d322ff, (-33));
(0x1333b4265bd3dc, (-34));
(0x182a71d3307fd0, (-36));
(0x1a95534cdf8def, (-38));
(0x18ecc5815b5189, (-40));
(0x132feb91e2c731, (-42));
(0x16d3657220f6bc, (-45));
(0x12bc2891041ea7, (-48));
(0x10000000000000, (-52))];
[(0x11c7a680000000, (-28));
(0x106657a58462db, (-27));
(0x1c02e8f5dc600d, (-27));
(0x1645d42af3e109, (-26));
(0x108f6ff913b9a9, (-25));
(0x171b217a7edf46, (-25));
(0x1e548e9905fd64, (-25));
(0x12c47c8a262181, (-24));
(0x15ee95f832dd41, (-24));
(0x183b4caeac34d6, (-24));
(0x19554782574ba1, (-24));
(0x1912e2bda582da, (-24));
(0x177ffb60b93ee0, (-24));
(0x14daa7850948cb, (-24));
(0x11840c5663d07f, (-24));
(0x1bd48624e8fdeb, (-25));
(0x14e40993c0f1aa, (-25));
(0x1d9862e6a6abb1, (-26));
(0x13bf507deb38d9, (-26));
(0x18c5330e762577, (-27));
(0x1d208cb6636634, (-28));
(0x100041edce9c01, (-28));
(0x105c278e15dd7a, (-29));
(0x1efa18cc0d9393, (-31));
(0x1afccf1421c4b3, (-32));
(0x1577ec7fe8e3f8, (-33));
(0x1ee0bfbdac9f49, (-35));
(0x13d063db14834c, (-36));
(0x164b22b2562108, (-38));
(0x1573b1982535cd, (-40));
(0x11036911d64655, (-42));
(0x14f244a73c38c8, (-45));
(0x11e3779b97f4a7, (-48));
(0x10000000000000, (-52))];
[(0x11270100000000, (-30));
(0x11b7df969f3ea8, (-29));
(0x10d6924fa60a00, (-28));
(0x1da8aeb6212f2d, (-28));
(0x1857f138ff83ce, (-27));
(0x12b40aa6a9a247, (-26));
(0x1afef159ae3bc4, (-26));
(0x1259dadc169b0a, (-25));
(0x178d1f879f75fd, (-25));
(0x1c94b382b740e4, (-25));
(0x106b9f5234fce9, (-24));
(0x11e1d10f3bcdd1, (-24));
(0x1277f2dda15b57, (-24));
(0x12189991d254e6, (-24));
(0x10d2c9a370db7b, (-24));
(0x1dac759a029500, (-25));
(0x18d07a7c7afa74, (-25));
(0x13a96aa86a98a7, (-25));
(0x1d7e1ffc9fe4fb, (-26));
(0x14e8a751bca8bd, (-26));
(0x1bf9c83629521d, (-27));
(0x119f7fa757fee6, (-27));
(0x14da13c291e5f8, (-28));
(0x1718a7303c8c1f, (-29));
(0x17da8fd4eb4c38, (-30));
(0x16dc21dbe6ec9c, (-31));
(0x14349a5ec08430, (-32));
(0x1058d785b7ddb7, (-33));
(0x17f9fb318be7c3, (-35));
(0x1f79157da2cf71, (-37));
(0x122bc27441b576, (-38));
(0x1203954f5cd7c8, (-40));
(0x1d92371f3ff119, (-43));
(0x12f0d1837fca14, (-45));
(0x10f0ea3f9397ce, (-48));
(0x10000000000000, (-52))];
[(0x19f5d800000000, (-33));
(0x1e4100bdb2c71a, (-32));
(0x10128ebe49504f, (-30));
(0x1f72606cec66c9, (-30));
(0x1c88dab9bb0e22, (-29));
(0x18271044552cc2, (-28));
(0x1327bab3545fc0, (-27));
(0x1c91dab783af35, (-27));
(0x14172e84ffb917, (-26));
(0x1ab4621159c3ab, (-26));
(0x10cdd0e2de3c87, (-25));
(0x140d1c475f4996, (-25));
(0x16b5a59b321d0d, (-25));
(0x186e7cfc87c98c, (-25));
(0x18facdc350f455, (-25));
(0x184748f25f3417, (-25));
(0x166e622f4124a5, (-25));
(0x13b21f9b73649b, (-25));
(0x106d6bf33c9ef6, (-25));
(0x1a029596755106, (-26));
(0x13864766e62567, (-26));
(0x1bc19c412a97de, (-27));
(0x12a6857970e169, (-27));
(0x17a4cf830b8bef, (-28));
(0x1c34090401ed6a, (-29));
(0x1f8e38d5087eaf, (-30));
(0x107eb6eb542d79, (-30));
(0x1009a058f2daf1, (-31));
(0x1cd55e05414fce, (-33));
(0x17c9d6e65814f7, (-34));
(0x11d7efee7c9375, (-35));
(0x1809b3133cb465, (-37));
(0x1c98a9547e7314, (-39));
(0x1d56d7151f5a41, (-41));
(0x190e62431950d8, (-43));
(0x10cee644d0ff58, (-45));
(0x1fbfbf7ebc755e, (-49));
(0x10000000000000, (-52))];
[(0x1e212000000000, (-36));
(0x1408ccc63d30d9, (-34));
(0x17fa98b2dc9d17, (-33));
(0x1a2f79180ebf2f, (-32));
(0x1a593d575ffc53, (-31));
(0x189c9976ecd44f, (-30));
(0x1576a30973714a, (-29));
(0x118dec931f32d9, (-28));
(0x1b06d94b044878, (-28));
(0x13a396ffada098, (-27));
(0x1b012d13259c00, (-27));
(0x119980124d8c55, (-26));
(0x15c745aba2c599, (-26));
(0x199d4ac5553453, (-26));
(0x1ca8b437d54221, (-26));
(0x1e85da399c8925, (-26));
(0x1ef4b158fe6a8b, (-26));
(0x1de688a1bba93d, (-26));
(0x1b81259d13fa14, (-26));
(0x18165bcf1f4cad, (-26));
(0x1412a1d744bfe5, (-26));
(0x1fcf3d4f43a01c, (-27));
(0x17f0bf3f9175b1, (-27));
(0x1117839da9cacc, (-27));
(0x171cc666d0540b, (-28));
(0x1d89e4878a38b6, (-29));
(0x11cbc4c92e722b, (-29));
(0x1427c32eeeeab2, (-30));
(0x1560c1279a47ef, (-31));
(0x15239ac042e084, (-32));
(0x1360cf490896b0, (-33));
(0x105a31b9385f7a, (-34));
(0x192d115134a1d8, (-36));
(0x117894fd84a238, (-37));
(0x158286d9fd5fe5, (-39));
(0x16f65545d95660, (-41));
(0x1489bdaf8a0a2c, (-43));
(0x1d1882e1fa52df, (-46));
(0x1d5364c8cb8f86, (-49));
(0x10000000000000, (-52))];
[(0x19de0000000000, (-39));
(0x13fc4eede0a147, (-37));
(0x1b42962ce71d4c, (-36));
(0x10be31a6af9144, (-34));
(0x12c71d536388ed, (-33));
(0x136b6dbbf789e4, (-32));
(0x12a864e6e906b0, (-31));
(0x10bfead8eed492, (-30));
(0x1c3a807bab7425, (-30));
(0x1668ce6dd5ea97, (-29));
(0x10cf214d84d111, (-28));
(0x17e23e336a7001, (-28));
(0x101a38c5f8e9d4, (-27));
(0x14a32ad958e802, (-27));
(0x192bdff2de7170, (-27));
(0x1d3f1b1e91e7b7, (-27));
(0x10327fa9229ca5, (-26));
(0x111c89eb46a3d4, (-26));
(0x113f2b05525f9f, (-26));
(0x1095f8aabdc0d0, (-26));
(0x1e6f0bfc3a4843, (-27));
(0x1aa12a7cb2ff3b, (-27));
(0x1635e8d2d608e1, (-27));
(0x11a50e79a1130f, (-27));
(0x1aad25c80f9a51, (-28));
(0x1329ee4024432f, (-28));
(0x1a1ffd525fdcdb, (-29));
(0x10dd14249a11fd, (-29));
(0x1491898808e066, (-30));
(0x17a25b962f67b7, (-31));
(0x197ea3fdd3f66f, (-32));
(0x19b541fe166ced, (-33));
(0x181aaeb6ae2982, (-34));
(0x14dff7c08fffd6, (-35));
(0x108e4018a4e5e1, (-36));
(0x17c7b1c39e4210, (-38));
(0x1e767d77dde2de, (-40));
(0x11077d0e795c0c, (-41));
(0x101551cbd3659a, (-43));
(0x1850cd5031294c, (-46));
(0x1a887293fd6f34, (-49));
(0x10000000000000, (-52))];
[(0x1ef00000000000, (-43));
(0x1c9faf3acdc458, (-41));
(0x16a79f5cc47088, (-39));
(0x1fac628ad4b3ff, (-38));
(0x13f3cd69cc4dac, (-36));
(0x16f7542dd0ed07, (-35));
(0x18649ffeec2f15, (-34));
(0x18164c5f647518, (-33));
(0x163dd6f92e53a3, (-32));
(0x134b148bc388b6, (-31));
(0x1f8f7987df2821, (-31));
(0x1869bb4ffe68d1, (-30));
(0x11e74bb41edc65, (-29));
(0x18f21e567b38cd, (-29));
(0x1089703f99bcbd, (-28));
(0x14e3eeccb15c5e, (-28));
(0x192bdff2de7170, (-28));
(0x1cf3fe76206479, (-28));
(0x1fcf8fcdc68e2c, (-28));
(0x10b2f7d4399115, (-27));
(0x10c1e3b5173515, (-27));
(0x1012b7aa44a58a, (-27));
(0x1d77a60d7dda28, (-28));
(0x19ce6e078504f3, (-28));
(0x159492faa10a43, (-28));
(0x113832209e88c4, (-28));
(0x1a3216fd297f79, (-29));
(0x12f8b6a92d543c, (-29));
(0x1a1ffd525fdcdb, (-30));
(0x11120041a6f460, (-30));
(0x151f99b074ba6b, (-31));
(0x18af64801b0917, (-32));
(0x1b2792be4827ed, (-33));
(0x1c01af6535e4cb, (-34));
(0x1af30861b3aaa5, (-35));
(0x180b809eae9f9c, (-36));
(0x13bc546cbf8e30, (-37));
(0x1d7edb07558e43, (-39));
(0x13c94495bfd026, (-40));
(0x175bddc08b4834, (-42));
(0x178b237ce6a7b1, (-44));
(0x134491be50521a, (-46));
(0x173ce704fb7b23, (-49));
(0x10000000000000, (-52))];
[(0x17000000000000, (-47));
(0x1af9ff552f5dbf, (-45));
(0x198a1c1d124746, (-43));
(0x14b1e839ee493e, (-41));
(0x1da39980b98729, (-40));
(0x13233b60fe04a7, (-38));
(0x1697d9b1447011, (-37));
(0x18a0e0b4b4b21d, (-36));
(0x18fa0f620dae19, (-35));
(0x17b42799deeb46, (-34));
(0x15262bb2be5518, (-33));
(0x11ce908d7a088d, (-32));
(0x1c621975d28bc7, (-32));
(0x15772db3811c28, (-31));
(0x1edfad511b222b, (-31));
(0x1526186ab68c2e, (-30));
(0x1ba3403f6fe4a6, (-30));
(0x113ed1d7d34304, (-29));
(0x14922c8a8fdcb2, (-29));
(0x17787c10808c52, (-29));
(0x19a0a606bfd9e4, (-29));
(0x1ac9dcc672693c, (-29));
(0x1acfd2bb5854ef, (-29));
(0x19b1d49e34a6ba, (-29));
(0x1792eb3dfe4820, (-29));
(0x14b2fc408743ae, (-29));
(0x1162bab6e3f62a, (-29));
(0x1beaf34e5586f1, (-30));
(0x15687740e2f217, (-30));
(0x1f529e25c31434, (-31));
(0x15d4be5da3a97a, (-31));
(0x1cf1b27c097008, (-32));
(0x1236936200f11a, (-32));
(0x15b46dd291f26b, (-33));
(0x186bbeede9304c, (-34));
(0x19d951da76d9c8, (-35));
(0x19a02acfdc3c9f, (-36));
(0x17a987d627e84e, (-37));
(0x14353ba7f6b988, (-38));
(0x1fa163f82c9ce5, (-40));
(0x1667afa9bf3da5, (-41));
(0x1c3a490ce17488, (-43));
(0x1ecd41d33eeffd, (-45));
(0x1bdc7bc29f9393, (-47));
(0x132eee75770416, (-49));
(0x10000000000000, (-52))];
[(0x10000000000000, (-52));
(0x1b6c30b83593e6, (-50));
(0x107074ccbc86db, (-47));
(0x1fd5a3f6af6b74, (-46));
(0x1a65532d989896, (-44));
(0x135a1775de247a, (-42));
(0x1999a5b0c9f1e3, (-41));
(0x1efa6a836271bf, (-40));
(0x11513cc33c75c5, (-38));
(0x1206427de97102, (-37));
(0x11916c8fb5f34c, (-36));
(0x101c2fe843d076, (-35));
(0x1be74d39c35d10, (-35));
(0x16e4747fe2e6e4, (-34));
(0x11d66e07ca3670, (-33));
(0x1a751c269e6fcb, (-33));
(0x12b54fde477fad, (-32));
(0x1943659c174e26, (-32));
(0x104eafcf41abbe, (-31));
(0x142594d7e7c100, (-31));
(0x17d6885aa3f49f, (-31));
(0x1b079f20a7caa2, (-31));
(0x1d626bf7c14d10, (-31));
(0x1ea2aab47e6383, (-31));
(0x1ea2aab47e6383, (-31));
(0x1d626bf7c14d10, (-31));
(0x1b079f20a7caa2, (-31));
(0x17d6885aa3f49f, (-31));
(0x142594d7e7c100, (-31));
(0x104eafcf41abbe, (-31));
(0x1943659c174e26, (-32));
(0x12b54fde477fad, (-32));
(0x1a751c269e6fcb, (-33));
(0x11d66e07ca3670, (-33));
(0x16e4747fe2e6e4, (-34));
(0x1be74d39c35d10, (-35));
(0x101c2fe843d076, (-35));
(0x11916c8fb5f34c, (-36));
(0x1206427de97102, (-37));
(0x11513cc33c75c5, (-38));
(0x1efa6a836271bf, (-40));
(0x1999a5b0c9f1e3, (-41));
(0x135a1775de247a, (-42));
(0x1a65532d989896, (-44));
(0x1fd5a3f6af6b74, (-46));
(0x107074ccbc86db, (-47));
(0x1b6c30b83593e6, (-50));
(0x10000000000000, (-52))]];
   [[(0x10000000000000, (-52))];
[(0x12c00000000000, (-44));
(0x187eb1990b697a, (-48));
(0x10000000000000, (-52))];
[(0x1d330000000000, (-39));
(0x131acec5b4c009, (-41));
(0x12b7fe4a5d172e, (-44));
(0x18743bde58000c, (-48));
(0x10000000000000, (-52))];
[(0x12112800000000, (-34));
(0x11ca89fde8ca66, (-36));
(0x1d19f542ffbca8, (-39));
(0x13024acf21074b, (-41));
(0x129ff920a3abf0, (-44));
(0x185f42f1521411, (-48));
(0x10000000000000, (-52))];
[(0x17b68480000000, (-31));
(0x1f4b01702d78ed, (-33));
(0x11f9bcd27e23fd, (-34));
(0x11a44c0b9aaca8, (-36));
(0x1ccf150b405751, (-39));
(0x12d1622e82da4d, (-41));
(0x1277f067ef054c, (-44));
(0x183fab8b4d4315, (-48));
(0x10000000000000, (-52))];
[(0x131a23a0000000, (-28));
(0x1fba143d6a8361, (-30));
(0x178d1482556483, (-31));
(0x1eec097304a2d4, (-33));
(0x11b3f3960a8f65, (-34));
(0x11586332c8a3b6, (-36));
(0x1c531f56774bd5, (-39));
(0x128853bf5e63fc, (-41));
(0x123fe3f1e36c14, (-44));
(0x18154be2773525, (-48));
(0x10000000000000, (-52))];
[(0x149f20a4000000, (-26));
(0x14bad6f32fee37, (-27));
(0x12efccabc5de2e, (-28));
(0x1f3ccb96b98e7c, (-30));
(0x17120653ca33a6, (-31));
(0x1e307d6d4492c1, (-33));
(0x1141332ed0e3aa, (-34));
(0x10e7f451ab8562, (-36));
(0x1ba75420a02d78, (-39));
(0x12277e73664053, (-41));
(0x11f7d37a382553, (-44));
(0x17dfea8e092211, (-48));
(0x10000000000000, (-52))];
[(0x1f9cba7a000000, (-25));
(0x12bc4b90a15205, (-25));
(0x1467431c11a405, (-26));
(0x14553840ac7311, (-27));
(0x1272831d77ed0c, (-28));
(0x1e46ae4c623dc3, (-30));
(0x16491493b76cf4, (-31));
(0x1d1d15f6d0ddd1, (-33));
(0x10a3cb18f62f38, (-34));
(0x1054b3a28a4474, (-36));
(0x1acd7363a93c64, (-39));
(0x11af62233db94f, (-41));
(0x119fbea2ee4965, (-44));
(0x179f3cf0a9fb4d, (-48));
(0x10000000000000, (-52))];
[(0x11e9e123000000, (-23));
(0x1893c651c48360, (-24));
(0x1f368fd4cb6bb6, (-25));
(0x124da1186df79b, (-25));
(0x13c29076ebfe9a, (-26));
(0x138eae23b19280, (-27));
(0x11a7627d0d1300, (-28));
(0x1ce074944ef2be, (-30));
(0x153852b64b056c, (-31));
(0x1bb8c1d60e59ac, (-33));
(0x1fbdd2d0bea298, (-35));
(0x1f41c201adebe9, (-37));
(0x19c7bd16eefdcf, (-39));
(0x1120a0b071234c, (-41));
(0x1137a4eecc46bd, (-44));
(0x1752e50db3a3a1, (-48));
(0x10000000000000, (-52))];
[(0x1ee8e3d8000000, (-23));
(0x18368edcb3843c, (-23));
(0x11a5efcd83057c, (-23));
(0x17e84dedd0ac0e, (-24));
(0x1e0a8a4ee3027a, (-25));
(0x1176a6f9ac1c9d, (-25));
(0x12b988082264a8, (-26));
(0x127057e87be399, (-27));
(0x1096a46e59b65e, (-28));
(0x1b16bce3cff127, (-30));
(0x13e7f8846ba7a4, (-31));
(0x1a0c78c38d4910, (-33));
(0x1ded1990ae9b0d, (-35));
(0x1d9e85bc3cd2ee, (-37));
(0x1898f12e734dcb, (-39));
(0x107bff83c2d813, (-41));
(0x10bf85b97b019b, (-44));
(0x16fa6ea162d0f0, (-48));
(0x10000000000000, (-52))];
[(0x14bdf736000000, (-22));
(0x125e95aac5f700, (-22));
(0x1e60d77663991f, (-23));
(0x1771ba60244fba, (-23));
(0x10df3f77faa788, (-23));
(0x169d3a78393a35, (-24));
(0x1c2b89ebb9b1f4, (-25));
(0x104395769062c2, (-25));
(0x1159ae88803e74, (-26));
(0x11073686cd7efb, (-27));
(0x1e966be836fc43, (-29));
(0x18f9832c1c53d7, (-30));
(0x12621a5b8b21cf, (-31));
(0x1822fff1ff16a5, (-33));
(0x1bdee4f614f849, (-35));
(0x1bc63facc2068d, (-37));
(0x17444f99afe090, (-39));
(0x1f84d2eea58ff5, (-42));
(0x1037602c46c2dc, (-44));
(0x16954b41cd4293, (-48));
(0x10000000000000, (-52))];
[(0x15ffc822000000, (-22));
(0x15dd31fd27e7df, (-22));
(0x1454ceb31341f1, (-22));
(0x11b23410814a68, (-22));
(0x1cd4c5e0befb4a, (-23));
(0x15f827952f6c8e, (-23));
(0x1f496088d40edd, (-24));
(0x14c923f860fc20, (-24));
(0x19b7343ebdc7b5, (-25));
(0x1d8b23c92f1498, (-26));
(0x1f69464097cde6, (-27));
(0x1ec6cec498b9aa, (-28));
(0x1ba4524d526345, (-29));
(0x169b72338ca722, (-30));
(0x10b24fed5fc3b5, (-31));
(0x1608a11840a580, (-33));
(0x199e00b18979f7, (-35));
(0x19c06d9babd890, (-37));
(0x15cd9841cf82b2, (-39));
(0x1de9e283ebda69, (-42));
(0x1f3e665be98228, (-45));
(0x1622cd337f0fe8, (-48));
(0x10000000000000, (-52))];
[(0x12a6c581000000, (-22));
(0x14b12224e67ec3, (-22));
(0x157fe6f326ab94, (-22));
(0x14f1c57cef58e4, (-22));
(0x13242a06fb9f11, (-22));
(0x1069db2a02e1cb, (-22));
(0x1a676482d52234, (-23));
(0x13e8280bd9dc12, (-23));
(0x1c1a9dea3e9e62, (-24));
(0x128b374a25d892, (-24));
(0x16d36b3e97904c, (-25));
(0x1a22bea7f9b189, (-26));
(0x1bbddc7c9e9a0f, (-27));
(0x1b2e5fe1e4f614, (-28));
(0x1874148162b469, (-29));
(0x1411157dfee7e2, (-30));
(0x1dca977eef2a47, (-32));
(0x13cad4f05b63b9, (-33));
(0x1736559dabaf3c, (-35));
(0x17956af69d210a, (-37));
(0x14390b06f5ec16, (-39));
(0x1c29a901f5ec10, (-42));
(0x1dedfa9659b8d4, (-45));
(0x15a22073490376, (-48));
(0x10000000000000, (-52))];
[(0x197b128c000000, (-23));
(0x1f70dab24b705e, (-23));
(0x122abaf25c47be, (-22));
(0x13b25da896b280, (-22));
(0x140f6ef31d737b, (-22));
(0x1334cd9ae0c233, (-22));
(0x114aee1ba31007, (-22));
(0x1d48469bc80c25, (-23));
(0x174db453beb62d, (-23));
(0x116ad2b44515ce, (-23));
(0x186be0c3012508, (-24));
(0x100848565a06c6, (-24));
(0x13ab190d5b9c61, (-25));
(0x167b98a4a61cd8, (-26));
(0x17dd4087ac9832, (-27));
(0x176bd24d2cb314, (-28));
(0x152440f7f718e3, (-29));
(0x116ff3a192b96e, (-30));
(0x1a10cc551e1604, (-32));
(0x1177e257b73266, (-33));
(0x14b4adbbd92dda, (-35));
(0x154e5a73d81053, (-37));
(0x128b67bbfeaf06, (-39));
(0x1a46ff1150b30a, (-42));
(0x1c7d7926b1baac, (-45));
(0x151241356cf6e0, (-48));
(0x10000000000000, (-52))];
[(0x1c2d583c000000, (-24));
(0x134b6d5568386a, (-23));
(0x18b93357f2aa1a, (-23));
(0x1db6c09c4a5154, (-23));
(0x10c779be438488, (-22));
(0x11d4f6ea762f75, (-22));
(0x11d9490ce9a16a, (-22));
(0x10d5f15ec9bb93, (-22));
(0x1def1607b38c09, (-23));
(0x19136d559a299b, (-23));
(0x13c87de863048b, (-23));
(0x1d5ed2073027cd, (-24));
(0x147c8415d80034, (-24));
(0x1acedac6d422a0, (-25));
(0x106a9f7bf22537, (-25));
(0x12c3ff8b2e183c, (-26));
(0x13f3b3d6f187fd, (-27));
(0x13a5b7bd08b74e, (-28));
(0x11d3490f4b8b3f, (-29));
(0x1d9b3459f85ada, (-31));
(0x16523e33083a03, (-32));
(0x1e3ce6f764eb9e, (-34));
(0x1226702f30900e, (-35));
(0x12f50be3b601e4, (-37));
(0x10c9ee1fa66e4b, (-39));
(0x184524673b98f0, (-42));
(0x1aecdcc5ef9138, (-45));
(0x1471eeaf76c2c6, (-48));
(0x10000000000000, (-52))];
[(0x194322f8000000, (-25));
(0x13302492fc56ab, (-24));
(0x1b378fe42c9d98, (-24));
(0x12155273b9fbc7, (-23));
(0x1691be4225650f, (-23));
(0x1a824ec0e8ad69, (-23));
(0x1d58919e2e474e, (-23));
(0x1ea69f49f4f12d, (-23));
(0x1e39afbead6ef5, (-23));
(0x1c265f60bb0e7f, (-23));
(0x18c2ad2616966f, (-23));
(0x148ffbf4a21704, (-23));
(0x101c93f427dc5b, (-23));
(0x17cc67c75df203, (-24));
(0x108b5426b32ba9, (-24));
(0x159d02a0b1fafc, (-25));
(0x1a7886a451df75, (-26));
(0x1e4f28374628bf, (-27));
(0x102ab4f994441e, (-27));
(0x100041edce9c01, (-28));
(0x1d3bdd6355c392, (-30));
(0x187d4ac30c19d0, (-31));
(0x12a9348f3db8e8, (-32));
(0x199a45887a6fd0, (-34));
(0x1f32aa698dbf0e, (-36));
(0x1093ddb268efb9, (-37));
(0x1df4bba25c9163, (-40));
(0x1627cc0134ba41, (-42));
(0x193c1e1e0c251f, (-45));
(0x13bf984cb56c77, (-48));
(0x10000000000000, (-52))];
[(0x1255e3b4000000, (-26));
(0x1eec7864fcbe35, (-26));
(0x18456c8234cd33, (-25));
(0x11cea09f0d6e87, (-24));
(0x1881f1915d075f, (-24));
(0x1fb85e3c2a1c14, (-24));
(0x135859ef8dc456, (-23));
(0x1645a38bcc89ec, (-23));
(0x183b4caeac34d6, (-23));
(0x18ef247f38d2db, (-23));
(0x18470f323e5325, (-23));
(0x165f0b4fddcc29, (-23));
(0x1381da98bef4b7, (-23));
(0x1016dc7c3dd66c, (-23));
(0x1915f58ad18bf9, (-24));
(0x12770ab9e4cbbc, (-24));
(0x19a157d0f7fb29, (-25));
(0x10bdd9f0394141, (-25));
(0x1489d845d167cf, (-26));
(0x17987edff4e660, (-27));
(0x194cc0790252eb, (-28));
(0x1936612c2410eb, (-29));
(0x173b92990a2eae, (-30));
(0x13ab9dd5d3f841, (-31));
(0x1e5c68f6a5fd4a, (-33));
(0x152402fc7caac9, (-34));
(0x1a36242e10ff37, (-36));
(0x1c6b32e8b3e419, (-38));
(0x1a45ec7976933c, (-40));
(0x13f32be2bcd4a2, (-42));
(0x176b32b5452651, (-45));
(0x12f9422c23c47d, (-48));
(0x10000000000000, (-52))];
[(0x1570c140000000, (-28));
(0x14201e504abd00, (-27));
(0x11806affab3010, (-26));
(0x1c5bfe382a5816, (-26));
(0x158004563329fc, (-25));
(0x1e9c45c49f604b, (-25));
(0x14845c89ab0b2b, (-24));
(0x19f3c52817f5a6, (-24));
(0x1f0728caa239c1, (-24));
(0x118ddc7f48285f, (-23));
(0x12d0d15f528bda, (-23));
(0x131de44fa76379, (-23));
(0x126a9962e8825b, (-23));
(0x10d2c9a370db7b, (-23));
(0x1d239335005811, (-24));
(0x17e966c31d2ea0, (-24));
(0x129421b49cf0bb, (-24));
(0x1b4e0eb3efb613, (-25));
(0x12f34119815bf2, (-25));
(0x18cc3dc644d382, (-26));
(0x1e8625168b5fc2, (-27));
(0x119f7fa757fee6, (-27));
(0x1306930c8c694b, (-28));
(0x13202453ed7f6a, (-29));
(0x11cff1d942e978, (-30));
(0x1e8c3d9d3c4bb2, (-32));
(0x17edfb33332b7f, (-33));
(0x10f435491c5519, (-34));
(0x1571fa30adcbef, (-36));
(0x17ca953dfb6f46, (-38));
(0x1694ecefa0cdd8, (-40));
(0x11ac11a7b08f69, (-42));
(0x157a0b14f120b9, (-45));
(0x121c5b70d9f823, (-48));
(0x10000000000000, (-52))];
[(0x1402d680000000, (-30));
(0x1501dc09236ac2, (-29));
(0x144c7eec1fafaa, (-28));
(0x122ff30b27fa87, (-27));
(0x1e642f3103d277, (-27));
(0x17c8a8fb275bf6, (-26));
(0x117ecd84fbbf38, (-25));
(0x1842fb63fd7bab, (-25));
(0x1fc8ec648ea08b, (-25));
(0x13b4538b642d5a, (-24));
(0x172734962b5c57, (-24));
(0x19cf4c37e6302e, (-24));
(0x1b50bafce705f1, (-24));
(0x1b75701b86883b, (-24));
(0x1a394667ac9a81, (-24));
(0x17cab7ae6a51ca, (-24));
(0x1480022c85f3e5, (-24));
(0x10c423f9b71ef5, (-24));
(0x1a029596755106, (-25));
(0x131d0a4ac165da, (-25));
(0x1a931a9ebf1ca9, (-26));
(0x117227e29ac4d9, (-26));
(0x15956f510c9da9, (-27));
(0x191812cb6d51fd, (-28));
(0x1b53f20a51a623, (-29));
(0x1bc3e340a8a781, (-30));
(0x1a3075b3423a31, (-31));
(0x16cb7bb3318a2d, (-32));
(0x122b3113e888ed, (-33));
(0x1a43d25103fa96, (-35));
(0x10ff52997c98be, (-36));
(0x135c1c7968e3e2, (-38));
(0x12f039fa9580f4, (-40));
(0x1eaffbd433dae2, (-43));
(0x13688f736ab6e5, (-45));
(0x11257c5187fd08, (-48));
(0x10000000000000, (-52))];
[(0x1d604c00000000, (-33));
(0x115fd5f15485f4, (-31));
(0x12bef4d42ccee1, (-30));
(0x12a19acbcaf3bf, (-29));
(0x112f2777c9ad77, (-28));
(0x1d95d590b6bb58, (-28));
(0x17e065cba39183, (-27));
(0x12214e0c2fff2d, (-26));
(0x19fae04ee47791, (-26));
(0x119ad6e37a5016, (-25));
(0x169b6b7e5fab7a, (-25));
(0x1b8c3932937e48, (-25));
(0x1fe3c346895570, (-25));
(0x118ccb97c129cd, (-24));
(0x12608fe9b7c507, (-24));
(0x12504fbc2ab8b0, (-24));
(0x115ee1da99cab8, (-24));
(0x1f5c248774ccf5, (-25));
(0x1aee32d323febb, (-25));
(0x15fd16eb888275, (-25));
(0x110e536396cbff, (-25));
(0x191be257908c21, (-26));
(0x1183915a17aa16, (-26));
(0x171cc666d0540b, (-27));
(0x1cca6bd9e8e69a, (-28));
(0x10e1fb4ec26baa, (-28));
(0x129510dfdaea1e, (-29));
(0x131efafe5ef8d3, (-30));
(0x124e9643985d4c, (-31));
(0x103682dcd3bd35, (-32));
(0x1a5e090e7d6bad, (-34));
(0x138053f34b4a68, (-35));
(0x19e9e941f2c770, (-37));
(0x1e6b67a2ff1a61, (-39));
(0x1ece9c874f0f42, (-41));
(0x19fa9320537ee2, (-43));
(0x11369943a371e7, (-45));
(0x100ff807f60deb, (-48));
(0x10000000000000, (-52))];
[(0x10923800000000, (-35));
(0x165834e372a2e4, (-34));
(0x1b206d8a60c0dc, (-33));
(0x1e0f234f3a4605, (-32));
(0x1eb484d5399d6d, (-31));
(0x1d212499f34ed6, (-30));
(0x19d01fdd84d3b8, (-29));
(0x1576a30973714a, (-28));
(0x10ce9ad2606ff1, (-27));
(0x18dc6a4c94bb40, (-27));
(0x11687b699f5e24, (-26));
(0x1720171dfd3202, (-26));
(0x1d2f86e6d327d0, (-26));
(0x1184bf3f39b699, (-25));
(0x1406122df812eb, (-25));
(0x15ce6509fe8ee6, (-25));
(0x16a2e876fc1d81, (-25));
(0x166778b6d6049a, (-25));
(0x1524929c620388, (-25));
(0x1305677da46d2a, (-25));
(0x104ea4ffb376a0, (-25));
(0x1aa12a7cb2ff3b, (-26));
(0x14b0b7e27f14c0, (-26));
(0x1e8fc57cb06a0d, (-27));
(0x156cff4a8cbbb7, (-27));
(0x1c7811506724b0, (-28));
(0x11e2f4133430d9, (-28));
(0x1533976f8b0b1e, (-29));
(0x17a25b962f67b7, (-30));
(0x18af64801b0917, (-31));
(0x180c33f484b682, (-32));
(0x15ba2d9286494b, (-33));
(0x12140309029f21, (-34));
(0x1b7457d787480f, (-36));
(0x12ccbeb7e94be7, (-37));
(0x16d8de19e66a26, (-39));
(0x18153f6d81b36a, (-41));
(0x1546b3a62b0422, (-43));
(0x1dc7cb59453c4c, (-46));
(0x1daa2fefaae1d7, (-49));
(0x10000000000000, (-52))];
[(0x1bb70000000000, (-39));
(0x15b0b73f0137fe, (-37));
(0x1dfa7664d0f1ea, (-36));
(0x12a9e9614ca07d, (-34));
(0x1539be19b4a6ed, (-33));
(0x1644895f5839d9, (-32));
(0x15b639e86b1652, (-31));
(0x13ca218bb3d9fb, (-30));
(0x10f05eb5539fd3, (-29));
(0x1b5507c5ffac57, (-29));
(0x14d8b972f0e08e, (-28));
(0x1e22d616fcbd8c, (-28));
(0x14af16f91d8a3c, (-27));
(0x1b012d13259c00, (-27));
(0x10c9ccb8b582a9, (-26));
(0x13e6549091bd74, (-26));
(0x168134da5d3071, (-26));
(0x184bbf7db3eaf8, (-26));
(0x190c73be5659a0, (-26));
(0x18aa8bdd05ea9b, (-26));
(0x17331543345401, (-26));
(0x14d62a44b06913, (-26));
(0x11dd180d58eec3, (-26));
(0x1d384f09c40e0a, (-27));
(0x16c77eb3383580, (-27));
(0x10e8c329896874, (-27));
(0x17df3b01b17562, (-28));
(0x1fff14b4ff84dc, (-29));
(0x14515770c4e39c, (-29));
(0x186428b6748ce7, (-30));
(0x1b994bb27f4055, (-31));
(0x1d548ea77c24a1, (-32));
(0x1d2671e4461121, (-33));
(0x1af30861b3aaa5, (-34));
(0x170571e3a803b8, (-35));
(0x12041fff003a9d, (-36));
(0x198b3b95b60a12, (-38));
(0x1027c62046a444, (-39));
(0x11d732c18dc19e, (-41));
(0x10a5d4a1b76a95, (-43));
(0x18dfeb6abd9840, (-46));
(0x1ad5336963eefb, (-49));
(0x10000000000000, (-52))];
[(0x102c0000000000, (-42));
(0x1e493e9661d9a2, (-41));
(0x184458c67ebde0, (-39));
(0x112dc8111b57be, (-37));
(0x15ecc67aea98f4, (-36));
(0x1992dfc36413c2, (-35));
(0x1b8911500b6895, (-34));
(0x1b92d9e8e446f7, (-33));
(0x19d49e46daaa7b, (-32));
(0x16bdcea2daa6b0, (-31));
(0x12e31685775aa4, (-30));
(0x1daf11967db057, (-30));
(0x16204ce4e55609, (-29));
(0x1f5a38d20879b7, (-29));
(0x1526186ab68c2e, (-28));
(0x1b33d29e5f0b1a, (-28));
(0x10b2a17ba8ef7a, (-27));
(0x13953f8f43deb7, (-27));
(0x15f46c377eebd1, (-27));
(0x178a572a55a535, (-27));
(0x182597f85ebf5d, (-27));
(0x17b2d1e414ba98, (-27));
(0x1640917f4aff5d, (-27));
(0x13fc59f7d0a0c6, (-27));
(0x1129afc1dcf190, (-27));
(0x1c2b01767c5ca9, (-28));
(0x16122910824d3c, (-28));
(0x107efb87d08056, (-28));
(0x177df69c524f27, (-29));
(0x1fd2ec7dd1bc9c, (-30));
(0x14777277c96ee2, (-30));
(0x18f07ea71260d1, (-31));
(0x1cb676f32ffe7a, (-32));
(0x1f217187e20a40, (-33));
(0x1fa887461d64bc, (-34));
(0x1e0c7a5aa45e2c, (-35));
(0x1a74866db61379, (-36));
(0x156f0acffb0886, (-37));
(0x1fa163f82c9ce5, (-39));
(0x14f53e3eb86a1a, (-40));
(0x1872258d82733c, (-42));
(0x1859d7d67a1b6b, (-44));
(0x13b36d6a7b75e3, (-46));
(0x177ea35d632e43, (-49));
(0x10000000000000, (-52))];
[(0x17800000000000, (-47));
(0x1bdfc8e5623758, (-45));
(0x1ab1ae692644cd, (-43));
(0x15e2e0b99899df, (-41));
(0x1fb989b057083f, (-40));
(0x14bd0fa04efae5, (-38));
(0x18cb6e0f049ebc, (-37));
(0x1b6190502edaf7, (-36));
(0x1c2402bd423f61, (-35));
(0x1b12fef83c8dfc, (-34));
(0x187f9cdd04e57d, (-33));
(0x14ed79eb5285cc, (-32));
(0x10eddd6efa8893, (-31));
(0x1a00a87b67e8d9, (-31));
(0x12ff91be7a506e, (-30));
(0x1a751c269e6fcb, (-30));
(0x11951e254b5ba7, (-29));
(0x16546cde50d068, (-29));
(0x1b1f9b42c3aa44, (-29));
(0x1f88e450c3c1bd, (-29));
(0x118e6d126ddce2, (-28));
(0x12ba9f3590742e, (-28));
(0x1325aab0cefe32, (-28));
(0x12c2a20b084c94, (-28));
(0x119d888e2f12d2, (-28));
(0x1fb1f9bd1bd84e, (-29));
(0x1b4f54558e740a, (-29));
(0x168659f08bd387, (-29));
(0x11c5426989059f, (-29));
(0x1acbb5d7942d4a, (-30));
(0x1348b5b54a6485, (-30));
(0x1a751c269e6fcb, (-31));
(0x11456d38cc491e, (-31));
(0x1569f42964a1a3, (-32));
(0x1926e29641056d, (-33));
(0x1be74d39c35d10, (-34));
(0x1d222252f110e8, (-35));
(0x1c7fc9054d3724, (-36));
(0x19f9db24dab0a8, (-37));
(0x15e7a6a68be25f, (-38));
(0x10eed487225feb, (-39));
(0x17b37f92a367e1, (-41));
(0x1d82eb3ed3efdc, (-43));
(0x1fd5a3f6af6b74, (-45));
(0x1c7942924af40d, (-47));
(0x13640630445305, (-49));
(0x10000000000000, (-52))];
[(0x10000000000000, (-52));
(0x1bb67ae8584caa, (-50));
(0x10caf8960e710d, (-47));
(0x107074ccbc86db, (-45));
(0x1b91cbb254e15e, (-44));
(0x1472338d194c73, (-42));
(0x1b5e24c24c0483, (-41));
(0x10c25e84ddcfc9, (-39));
(0x12f85e4290874a, (-38));
(0x13ff0fc25d1bfe, (-37));
(0x13beab14b56bfd, (-36));
(0x125967ff2cfbad, (-35));
(0x101c2fe843d076, (-34));
(0x1acf0fef36e8d6, (-34));
(0x1531ba23751627, (-33));
(0x1fe8ad8f63de71, (-33));
(0x16e9af6f46b434, (-32));
(0x1f6fa7613a503f, (-32));
(0x14a09b82f4a88d, (-31));
(0x19eb68c31b4bae, (-31));
(0x1f36173d3516e7, (-31));
(0x120514c06fdc6c, (-30));
(0x13f67aaefdca0e, (-30));
(0x15398f17d31a9e, (-30));
(0x15a99a56e88680, (-30));
(0x15398f17d31a9e, (-30));
(0x13f67aaefdca0e, (-30));
(0x120514c06fdc6c, (-30));
(0x1f36173d3516e7, (-31));
(0x19eb68c31b4bae, (-31));
(0x14a09b82f4a88d, (-31));
(0x1f6fa7613a503f, (-32));
(0x16e9af6f46b434, (-32));
(0x1fe8ad8f63de71, (-33));
(0x1531ba23751627, (-33));
(0x1acf0fef36e8d6, (-34));
(0x101c2fe843d076, (-34));
(0x125967ff2cfbad, (-35));
(0x13beab14b56bfd, (-36));
(0x13ff0fc25d1bfe, (-37));
(0x12f85e4290874a, (-38));
(0x10c25e84ddcfc9, (-39));
(0x1b5e24c24c0483, (-41));
(0x1472338d194c73, (-42));
(0x1b91cbb254e15e, (-44));
(0x107074ccbc86db, (-45));
(0x10caf8960e710d, (-47));
(0x1bb67ae8584caa, (-50));
(0x10000000000000, (-52))]];
   [[(0x19000000000000, (-48));
(0x10000000000000, (-52))];
[(0x14500000000000, (-41));
(0x1383ff970ef543, (-44));
(0x18fae0c15ad389, (-48));
(0x10000000000000, (-52))];
[(0x13b5a000000000, (-36));
(0x1fa2f550f17529, (-39));
(0x14437c2502b7b2, (-41));
(0x1373fc4c7d7d26, (-44));
(0x18eb7cb456380d, (-48));
(0x10000000000000, (-52))];
[(0x12112800000000, (-32));
(0x1461e14570ee98, (-34));
(0x13a1457d9beb53, (-36));
(0x1f6edfd83ba66d, (-39));
(0x141dffe68c9378, (-41));
(0x1353f5a6ffeba4, (-44));
(0x18d1c0be7f20ab, (-48));
(0x10000000000000, (-52))];
[(0x131a23a0000000, (-29));
(0x1bddb42bdd2001, (-31));
(0x11f6cd47462c7a, (-32));
(0x142f3840b59f96, (-34));
(0x1364810f647296, (-36));
(0x1f0734e56d8423, (-39));
(0x13dfb95b487da0, (-41));
(0x1323eb8513c365, (-44));
(0x18ad8c842be9b4, (-48));
(0x10000000000000, (-52))];
[(0x1a0c5f20000000, (-27));
(0x17652c4057bed9, (-28));
(0x12f5dee1af30b8, (-29));
(0x1b8072e18e4ae1, (-31));
(0x11a86028da6e43, (-32));
(0x13cae035d702d7, (-34));
(0x13003366e2e401, (-36));
(0x1e6cf475a7a26c, (-39));
(0x1388f5bc8577f4, (-41));
(0x12e3ddb2612c1a, (-44));
(0x187eb1990b697a, (-48));
(0x10000000000000, (-52))];
[(0x18965826000000, (-25));
(0x1a5733d2daaf07, (-26));
(0x19cef64ae56a81, (-27));
(0x170201ec5f6b6b, (-28));
(0x128a4da5df6a7b, (-29));
(0x1ac8a73d4b1a76, (-31));
(0x1127c5de4ed372, (-32));
(0x1336c921f1e294, (-34));
(0x1275d1007f61cb, (-36));
(0x1da19e8455993a, (-39));
(0x131a220735fa11, (-41));
(0x1293cbe50439e3, (-44));
(0x1844f24cb4e434, (-48));
(0x10000000000000, (-52))];
[(0x10dc1f30000000, (-23));
(0x151326fc000000, (-24));
(0x18507e9b400407, (-25));
(0x19cef64ae56a81, (-26));
(0x19197676398c75, (-27));
(0x163f9060a5b2fa, (-28));
(0x11db1a28dcbc4e, (-29));
(0x19bba8cd763d2b, (-31));
(0x10781a1d187911, (-32));
(0x1275d1007f61cb, (-34));
(0x11c75f1c335bef, (-36));
(0x1ca7330ad0f71a, (-39));
(0x1293cbe50439e3, (-41));
(0x1233b5b987ab27, (-44));
(0x18000000000000, (-48));
(0x10000000000000, (-52))];
[(0x11630029800000, (-22));
(0x18f553d0498302, (-23));
(0x10a38d35865756, (-23));
(0x14915a5cd51ac9, (-24));
(0x1782ccbed1241f, (-25));
(0x18c53ef728d233, (-26));
(0x17f3e7eb7cf42e, (-27));
(0x15256d9167fe5d, (-28));
(0x10ee360e61f6b8, (-29));
(0x18614399d4bf70, (-31));
(0x1f3b377c2b504a, (-33));
(0x118bb7cb12fba9, (-34));
(0x10f76f73b1cb0d, (-36));
(0x1b8031ffd28bf5, (-39));
(0x11f6a2e5d779d8, (-41));
(0x11c39aad23f464, (-44));
(0x17af78e6da9b30, (-48));
(0x10000000000000, (-52))];
[(0x1ba7f448000000, (-22));
(0x168775caf42318, (-22));
(0x111f0adcfa7b5b, (-22));
(0x18414f63b82ec0, (-23));
(0x1ffb348f8078c8, (-24));
(0x13959e6d9d4768, (-24));
(0x163889da058002, (-25));
(0x1747243458a29c, (-26));
(0x166b2babe4e2bb, (-27));
(0x13be83ee1646e8, (-28));
(0x1f97397cf07174, (-30));
(0x16c3772c91c2c5, (-31));
(0x1d3b23ee65d3e7, (-33));
(0x107d0f78f77779, (-34));
(0x10091aa0ef50b4, (-36));
(0x1a2f9b569d3c63, (-39));
(0x11437a159a238c, (-41));
(0x11437a159a238c, (-44));
(0x1752e50db3a3a1, (-48));
(0x10000000000000, (-52))];
[(0x1148f8ad000000, (-21));
(0x1faf1b45fc78b2, (-22));
(0x1b2b376ae5dc2b, (-22));
(0x15cb570551a154, (-22));
(0x10588143fd38ff, (-22));
(0x16e64385fc7a7c, (-23));
(0x1dea6de74db5ea, (-24));
(0x122f073b4c59aa, (-24));
(0x14839483166b69, (-25));
(0x15673476459037, (-26));
(0x14903ff416e700, (-27));
(0x12188a32f56f1f, (-28));
(0x1cfa0022174927, (-30));
(0x14ee2248e6a480, (-31));
(0x1afc54ef603dd5, (-33));
(0x1e9e4ffd3d7f35, (-35));
(0x1dfff2466342a8, (-37));
(0x18b8eefdc0a18b, (-39));
(0x107b49fe806bb2, (-41));
(0x10b35315a61592, (-44));
(0x16e9b2675a6626, (-48));
(0x10000000000000, (-52))];
[(0x11377b3c000000, (-21));
(0x11a378916ec4ec, (-21));
(0x10ef919db2dc17, (-21));
(0x1e7f360c9ce2ea, (-22));
(0x19c06a0bfa6669, (-22));
(0x1462fe9ed0e669, (-22));
(0x1e3d9e0b23cc61, (-23));
(0x14fcda7e2c4f43, (-23));
(0x1b370222188567, (-24));
(0x1072a1a89893cd, (-24));
(0x127b122c07925a, (-25));
(0x133c413adf740a, (-26));
(0x127748dc5ba299, (-27));
(0x104357abddb3fd, (-28));
(0x1a1ac46266297c, (-30));
(0x12ee9d4f5ef8a0, (-31));
(0x188ca1a133689c, (-33));
(0x1c0fee99a2cd3b, (-35));
(0x1bc035d648510e, (-37));
(0x17202cdd3c438c, (-39));
(0x1f3e665be98228, (-42));
(0x1013248c6f7d38, (-44));
(0x16732f8d0e2f76, (-48));
(0x10000000000000, (-52))];
[(0x1b9aa96d000000, (-22));
(0x1f774d1521e38b, (-22));
(0x10d1bd5367ad8a, (-21));
(0x10e21c7aa271dc, (-21));
(0x1fd998792ffaf6, (-22));
(0x1c3d2587569167, (-22));
(0x178849f0c823d6, (-22));
(0x126c4dae3fa445, (-22));
(0x1b1385aafab139, (-23));
(0x12a6f35f8798e1, (-23));
(0x180c6c81870a29, (-24));
(0x1cf3769f9ef9a8, (-25));
(0x1039be6a9c8d09, (-25));
(0x10dfe4c0cbc5e0, (-26));
(0x10366b63a0b4c5, (-27));
(0x1ca039ec8bf752, (-29));
(0x171140c54af102, (-30));
(0x10d345cfa9f207, (-31));
(0x15faff5ba6464c, (-33));
(0x195bfa9efe028b, (-35));
(0x195bfa9efe028b, (-37));
(0x1569d4d3a74662, (-39));
(0x1d6102b4bdcebc, (-42));
(0x1ec5d9fad6c54e, (-45));
(0x15ee84b0d1f875, (-48));
(0x10000000000000, (-52))];
[(0x11ee4f6c000000, (-22));
(0x16abf23d52f36f, (-22));
(0x1ae09100c90fa2, (-22));
(0x1dee1ea41cd17d, (-22));
(0x1f59a7d8b5aefa, (-22));
(0x1eea3c00bb4839, (-22));
(0x1cb7102fc6be75, (-22));
(0x19202e29cde6a7, (-22));
(0x14b4aadecbe063, (-22));
(0x100f93f8e32b14, (-22));
(0x176df19abb25b6, (-23));
(0x100c49e84d6124, (-23));
(0x149b84aedbbca3, (-24));
(0x18bfb149f658b0, (-25));
(0x1bb7f9c37a4eda, (-26));
(0x1cd9b9c19a0817, (-27));
(0x1bc91853a16e10, (-28));
(0x18a115b8ab01cd, (-29));
(0x13f5e60c9df8f9, (-30));
(0x1d55fc8fc17c60, (-32));
(0x13571902437ddf, (-33));
(0x169047d7f9682f, (-35));
(0x16dcfe8619eed0, (-37));
(0x139ae6b1be657b, (-39));
(0x1b615ea691e6ce, (-42));
(0x1d4554d8f273b3, (-45));
(0x155aaa002a9d59, (-48));
(0x10000000000000, (-52))];
[(0x12f25a3a000000, (-23));
(0x1a8723b3df2788, (-23));
(0x116456e35196d3, (-22));
(0x15693f9bcf9fc1, (-22));
(0x18cc026fd9181a, (-22));
(0x1b0e3f086d929e, (-22));
(0x1bd70c6ebfac68, (-22));
(0x1b08cc158ece35, (-22));
(0x18c81069183d06, (-22));
(0x1571746ae78a9e, (-22));
(0x11821efc73df3a, (-22));
(0x1af5bd2e181798, (-23));
(0x138d6bfa5c336e, (-23));
(0x1aad4329697c79, (-24));
(0x11163a8b4ffcc6, (-24));
(0x1481130d932f54, (-25));
(0x16fbac13ec9a80, (-26));
(0x17fab1c578942a, (-27));
(0x17300a86c25b1f, (-28));
(0x14abe43c73cba2, (-29));
(0x10e0cfb4f80a29, (-30));
(0x19094b222e2778, (-32));
(0x10b0dcc1741a50, (-33));
(0x13bb35fcb89f66, (-35));
(0x144da7330d5ba1, (-37));
(0x11b8e2333fb3f5, (-39));
(0x1942d7eb4a91dd, (-42));
(0x1ba4b44e2a00d0, (-45));
(0x14b65a49968d7e, (-48));
(0x10000000000000, (-52))];
[(0x104c58a0000000, (-24));
(0x194322f8000000, (-24));
(0x124b8b6191126f, (-23));
(0x18d87c202b69c0, (-23));
(0x1fb85e3c2a1c14, (-23));
(0x131315911d263b, (-22));
(0x15a4ff39f14218, (-22));
(0x17333506f50fac, (-22));
(0x178215a3710c5b, (-22));
(0x168754bca1abd7, (-22));
(0x146c0d599f9035, (-22));
(0x11821efc73df3a, (-22));
(0x1c60fd08195c34, (-23));
(0x15b9946b82e3d0, (-23));
(0x1f626d21a94725, (-24));
(0x155bc92e23fbf8, (-24));
(0x1b56c412199470, (-25));
(0x106a9f7bf22537, (-25));
(0x12721297e6995b, (-26));
(0x1352b3704ca145, (-27));
(0x12cacf7cc65c08, (-28));
(0x10e0cfb4f80a29, (-29));
(0x1bd16fed16d686, (-31));
(0x14dd13f1d120e4, (-32));
(0x1c3003fb50e3b6, (-34));
(0x10eb60aa8b21b1, (-35));
(0x11b8e2333fb3f5, (-37));
(0x1f938de61d3654, (-40));
(0x170940ebcdab58, (-42));
(0x19e3f0dbfc30de, (-45));
(0x14000000000000, (-48));
(0x10000000000000, (-52))];
[(0x16c7cd54000000, (-26));
(0x13914272ff4170, (-25));
(0x1f4ed0b7fecf1a, (-25));
(0x176ddd0836b84b, (-24));
(0x107522a4a58559, (-23));
(0x15c2f87ae179df, (-23));
(0x1b24389bfcfe3f, (-23));
(0x1ffb9f09b70341, (-23));
(0x11d389a9603d8d, (-22));
(0x12d0d15f528bda, (-22));
(0x12d0d15f528bda, (-22));
(0x11d4e4196d2d17, (-22));
(0x1003f08fd75eb5, (-22));
(0x1b41cb22e0c964, (-23));
(0x15f6ddc1fd3c2d, (-23));
(0x10bf1e804d0d8f, (-23));
(0x182265719c10d0, (-24));
(0x10694f38c648df, (-24));
(0x1505fbc15ccaeb, (-25));
(0x194f258aff277c, (-26));
(0x1c8d7695cfe445, (-27));
(0x1e150de83b3fb6, (-28));
(0x1d79762055f8f4, (-29));
(0x1ab7eac5e45e35, (-30));
(0x1643ee4f93a3d7, (-31));
(0x10ebb90ee13075, (-32));
(0x17371323d89406, (-34));
(0x1c5e8eacf46e7a, (-36));
(0x1e540017bd86e3, (-38));
(0x1ba828ad71458d, (-40));
(0x14b8f0eb783884, (-42));
(0x1802ffd005ff10, (-45));
(0x1335997337ff40, (-48));
(0x10000000000000, (-52))];
[(0x19ba8180000000, (-28));
(0x1890289f471f57, (-27));
(0x15bcec85955bbd, (-26));
(0x11ef0fee34d216, (-25));
(0x1bb51307f74a67, (-25));
(0x141c8952313dcc, (-24));
(0x1b829773b3fda9, (-24));
(0x11c4adb0105724, (-23));
(0x15b693affd9833, (-23));
(0x1922b1caed23ca, (-23));
(0x1b977f9636c1f2, (-23));
(0x1cbdcf91ce5f5c, (-23));
(0x1c6c28d5fcea4a, (-23));
(0x1ab01a6ffebe9c, (-23));
(0x17cab7ae6a51ca, (-23));
(0x142171292f0d74, (-23));
(0x1028029634f422, (-23));
(0x1893c552853ed1, (-24));
(0x11b213312cbc96, (-24));
(0x1815d62b8ace69, (-25));
(0x1eeda5e2d80415, (-26));
(0x12b12abbeef77b, (-26));
(0x1535553e38e373, (-27));
(0x1682f0fcf96fec, (-28));
(0x1642fd1a8f775d, (-29));
(0x146812adae2d6b, (-30));
(0x113b35ee48a586, (-31));
(0x1a98a5c2252793, (-33));
(0x129275b646dcd2, (-34));
(0x1729da6d03f9c1, (-36));
(0x195912a403166b, (-38));
(0x17bd92d2cb5c6f, (-40));
(0x1256d92647b823, (-42));
(0x1601d16122dcf7, (-45));
(0x12548eb9151e85, (-48));
(0x10000000000000, (-52))];
[(0x17419180000000, (-30));
(0x18cc6c2bd7413a, (-29));
(0x185a06f56d2f0d, (-28));
(0x162f489af7d629, (-27));
(0x12db641d52a93c, (-26));
(0x1e0b43d8ef4b2d, (-26));
(0x1682d2e1e49eb1, (-25));
(0x1fd1a063abeff9, (-25));
(0x1542869104b5ce, (-24));
(0x1ae86851b5c4fa, (-24));
(0x1026bb845e9d42, (-23));
(0x126959c405e065, (-23));
(0x13f2213f065dc2, (-23));
(0x148bdc42fb7551, (-23));
(0x142196f269d8ff, (-23));
(0x12c32e89a208bd, (-23));
(0x10a190cb6140d7, (-23));
(0x1c07b59761d652, (-24));
(0x16712a5a9dfef1, (-24));
(0x110e536396cbff, (-24));
(0x18948b8ca0a05f, (-25));
(0x10c4b0781fbac9, (-25));
(0x159ea2dfc6de0f, (-26));
(0x1a483e4b31c056, (-27));
(0x1e0b05d2f1bea3, (-28));
(0x1017bd6c1638da, (-28));
(0x1017bd6c1638da, (-29));
(0x1de52a1ae1d037, (-31));
(0x19a288ce166193, (-32));
(0x14236cb79d1716, (-33));
(0x1cb481fb66b7e0, (-35));
(0x1252e23190fce6, (-36));
(0x14981916153c8d, (-38));
(0x13e2c929cb05f1, (-40));
(0x1fd141dc780982, (-43));
(0x13e04d47ddad7f, (-45));
(0x11596f1acc669b, (-48));
(0x10000000000000, (-52))];
[(0x10923800000000, (-32));
(0x13e343da7684f0, (-31));
(0x15c7a83a679fa1, (-30));
(0x15fb466f7817b2, (-29));
(0x1498ff11cb3582, (-28));
(0x1205df2f91ced2, (-27));
(0x1d95d590b6bb58, (-27));
(0x16dc2cd96ab6ee, (-26));
(0x10ad6128c0b3a5, (-25));
(0x17075f24af25f8, (-25));
(0x1e26da77867896, (-25));
(0x12beacd1c2c547, (-24));
(0x1628ce61688419, (-24));
(0x18ede82d95949d, (-24));
(0x1ab5025ecc6451, (-24));
(0x1b41fe4c7e32a0, (-24));
(0x1a824d2b7acbcf, (-24));
(0x1890d7575ac936, (-24));
(0x15aff99e64dbcc, (-24));
(0x123b64fc1a5bf0, (-24));
(0x1d2bd4c690931a, (-25));
(0x163018faaa23d3, (-25));
(0x1006d202a6898c, (-25));
(0x15f4731cca2193, (-26));
(0x1c7811506724b0, (-27));
(0x116f03009b269d, (-27));
(0x141d10c13501ba, (-28));
(0x15ca277bf96c8a, (-29));
(0x16143c8ecc3377, (-30));
(0x14d36d9aef94de, (-31));
(0x122da6e9f3ab55, (-32));
(0x1d2671e4461121, (-34));
(0x154421950ead51, (-35));
(0x1be2745569d82e, (-37));
(0x1027c62046a444, (-38));
(0x1027c62046a444, (-40));
(0x1ae997e345ca26, (-43));
(0x119e4c2c501523, (-45));
(0x103f81f636b80b, (-48));
(0x10000000000000, (-52))];
[(0x12301800000000, (-35));
(0x18db5400000000, (-34));
(0x1e98b728b6565f, (-33));
(0x1131d5a75f4821, (-31));
(0x11d2a7d00081ea, (-30));
(0x112a29e4295742, (-29));
(0x1ee57e9ab0d043, (-29));
(0x1a1acb7fb04af3, (-28));
(0x14c828c5a6d4d9, (-27));
(0x1f45162c6950d6, (-27));
(0x164932c8a97f95, (-26));
(0x1e26da77867896, (-26));
(0x136425898bb199, (-25));
(0x17be01b1824464, (-25));
(0x1bb301f9c2a520, (-25));
(0x1ed0db59b0c285, (-25));
(0x105acbc77eeb2d, (-24));
(0x1091703b2cbf61, (-24));
(0x10056b0c72dc44, (-24));
(0x1d92e0068988d0, (-25));
(0x1a0bb4d5dc8358, (-25));
(0x15e0df94ec6e54, (-25));
(0x1184499d78d8ea, (-25));
(0x1ab608af158fe9, (-26));
(0x135f3864b259dc, (-26));
(0x1ab0903b60b265, (-27));
(0x116f03009b269d, (-27));
(0x158cdb182681da, (-28));
(0x192454f1824229, (-29));
(0x1b994bb27f4055, (-30));
(0x1c662119182818, (-31));
(0x1b447a5eed80ff, (-32));
(0x184ab43e3a639b, (-33));
(0x13efdf7bbdc27c, (-34));
(0x1de058125f1e7b, (-36));
(0x1431b7a8584d56, (-37));
(0x183ba93069f667, (-39));
(0x193afe65116d84, (-41));
(0x1605df37641a6c, (-43));
(0x1e7713ada69916, (-46));
(0x1e000000000000, (-49));
(0x10000000000000, (-52))];
[(0x1da60000000000, (-39));
(0x177f143309d4c3, (-37));
(0x10728e23ba14ef, (-35));
(0x14c067f5d3173b, (-34));
(0x17ec0a393d85d1, (-33));
(0x1972d417d04cf6, (-32));
(0x192bd1efa43189, (-31));
(0x1748889744add2, (-30));
(0x143bfdab57689b, (-29));
(0x10951156bf6ee0, (-28));
(0x19b4fc8dfc2d75, (-28));
(0x12e4d1373f6956, (-27));
(0x1a631285e89d73, (-27));
(0x11892177ff54bd, (-26));
(0x1635effc9f49a7, (-26));
(0x1ad681fbeb23aa, (-26));
(0x1ef6a43aa86a04, (-26));
(0x1110a6ae4c2298, (-25));
(0x11fab18e373907, (-25));
(0x121c31fa470f85, (-25));
(0x11710efc5972f0, (-25));
(0x100f24e2e0e834, (-25));
(0x1c439d146d1dcd, (-26));
(0x17c2c8998cc2fc, (-26));
(0x1311dfbaf57e2f, (-26));
(0x1d3275abdf25e9, (-27));
(0x154bd8d626af2a, (-27));
(0x1d8f679189534e, (-28));
(0x137cf399f082b0, (-28));
(0x185c30806ca35c, (-29));
(0x1ccc2df45bfe07, (-30));
(0x100d08df251cb2, (-30));
(0x10cffdcbdb55cb, (-31));
(0x1079baf59a04c0, (-32));
(0x1e0c7a5aa45e2c, (-34));
(0x195432fa2b23e7, (-35));
(0x1390f61aab299d, (-36));
(0x1b648bbeefa0a9, (-38));
(0x111cb3e30e83dd, (-39));
(0x12abbd0d74b35e, (-41));
(0x1137fe243d3a6b, (-43));
(0x196f096aa9c320, (-46));
(0x1b211b1c70d023, (-49));
(0x10000000000000, (-52))];
[(0x10e40000000000, (-42));
(0x1000a5e4a3fbc3, (-40));
(0x19f4321e53d89d, (-39));
(0x1299ac7399f4d7, (-37));
(0x180a469ce6bee3, (-36));
(0x1c67e4fef5b2f8, (-35));
(0x1efe4992c5c66c, (-34));
(0x1f76542d6ffb86, (-33));
(0x1de39cc4c3fbbf, (-32));
(0x1ab254e01f2a2a, (-31));
(0x1680d81aed5d6f, (-30));
(0x11f4c20a38f401, (-29));
(0x1b31b320600a79, (-29));
(0x139540a3bd1c14, (-28));
(0x1ade202ccc8367, (-28));
(0x11951e254b5ba7, (-27));
(0x15fa65ae9e3291, (-27));
(0x1a431e39fa4933, (-27));
(0x1e052a0196ab3f, (-27));
(0x106c268ef71398, (-26));
(0x11342435dd025d, (-26));
(0x11424d7e663bed, (-26));
(0x1094f7ca9ceccc, (-26));
(0x1e82bdb23f7644, (-27));
(0x1adef51b70b25f, (-27));
(0x16a4e774d88204, (-27));
(0x123f4749844ea9, (-27));
(0x1c1902bea63dea, (-28));
(0x14a5c304f9bdf6, (-28));
(0x1ced108fef96c8, (-29));
(0x1348b5b54a6485, (-29));
(0x186cd76e8b602f, (-30));
(0x1d52796da40eaa, (-31));
(0x10a2ec13ce54b6, (-31));
(0x11c8fab4cab24a, (-32));
(0x11d727ddff106a, (-33));
(0x10b58883892095, (-34));
(0x1d0ac3db2c4aa3, (-36));
(0x173bcfe289d54f, (-37));
(0x10eed487225feb, (-38));
(0x162b9fff3027c8, (-40));
(0x198ec0705f9f90, (-42));
(0x192adb4432466a, (-44));
(0x142249035b6b88, (-46));
(0x17bfa9c41ab040, (-49));
(0x10000000000000, (-52))];
[(0x18000000000000, (-47));
(0x1cc810ad6d68bc, (-45));
(0x1bdfc8e5623758, (-43));
(0x171e243fe91da4, (-41));
(0x10f3f873226b12, (-39));
(0x166ecb6362ea08, (-38));
(0x1b27314df0a006, (-37));
(0x1e5dfb73e15d19, (-36));
(0x1f9df26ef0e17b, (-35));
(0x1ed3992c2adbd8, (-34));
(0x1c47306f354295, (-33));
(0x187f9cdd04e57d, (-32));
(0x141b4bf3692ea0, (-31));
(0x1f58c2340878dc, (-31));
(0x1741e56292e925, (-30));
(0x1073f97def7eb2, (-29));
(0x163a8cf3b98e31, (-29));
(0x1cb64b657a57ab, (-29));
(0x11bef44283f135, (-28));
(0x15027e94c83a8f, (-28));
(0x17d6885aa3f49f, (-28));
(0x19eeb50f16c840, (-28));
(0x1b0e74ae836e41, (-28));
(0x1b1400eca2a821, (-28));
(0x19feb9351707cd, (-28));
(0x17ef3fd57443ff, (-28));
(0x15215128bd3adf, (-28));
(0x11e0e643faf777, (-28));
(0x1cfa9cf086efab, (-29));
(0x167a689884fe55, (-29));
(0x10abe9b6cb2aa5, (-29));
(0x179e35c2f52715, (-30));
(0x1fe8ad8f63de71, (-31));
(0x1485700baecdb8, (-31));
(0x1913ce9006c717, (-32));
(0x1d0afbedd0d192, (-33));
(0x1fc82571c129b7, (-34));
(0x105f1c0a7d268c, (-34));
(0x1f9df26ef0e17b, (-36));
(0x1c748d63d8caef, (-37));
(0x17b37f92a367e1, (-38));
(0x121a20dea06aaf, (-39));
(0x190a8fb06e6a74, (-41));
(0x1ed2daffe17cdb, (-43));
(0x107074ccbc86db, (-44));
(0x1d160948667c88, (-47));
(0x13988e1409212e, (-49));
(0x10000000000000, (-52))];
[(0x10000000000000, (-52));
(0x1c000000000000, (-50));
(0x11257c5187fd08, (-47));
(0x10f7856a3bc8a4, (-45));
(0x1cc4cc6649ebff, (-44));
(0x1593994cb770ff, (-42));
(0x1d36fcf880d187, (-41));
(0x121a20dea06aaf, (-39));
(0x14bd0fa04efae5, (-38));
(0x1621c34da89dd6, (-37));
(0x1621c34da89dd6, (-36));
(0x14d623b0423110, (-35));
(0x128a15d7b0adab, (-34));
(0x1f46e7ec6aba4f, (-34));
(0x1913ce9006c717, (-33));
(0x132735603cc001, (-32));
(0x1beb97dd7762a3, (-32));
(0x13733b55425c6b, (-31));
(0x19eef9c70325e4, (-31));
(0x1090172d03adee, (-30));
(0x144907752b415e, (-30));
(0x17d6885aa3f49f, (-30));
(0x1ae495d6c24aed, (-30));
(0x1d2342948d8a6e, (-30));
(0x1e53d81345891a, (-30));
(0x1e53d81345891a, (-30));
(0x1d2342948d8a6e, (-30));
(0x1ae495d6c24aed, (-30));
(0x17d6885aa3f49f, (-30));
(0x144907752b415e, (-30));
(0x1090172d03adee, (-30));
(0x19eef9c70325e4, (-31));
(0x13733b55425c6b, (-31));
(0x1beb97dd7762a3, (-32));
(0x132735603cc001, (-32));
(0x1913ce9006c717, (-33));
(0x1f46e7ec6aba4f, (-34));
(0x128a15d7b0adab, (-34));
(0x14d623b0423110, (-35));
(0x1621c34da89dd6, (-36));
(0x1621c34da89dd6, (-37));
(0x14bd0fa04efae5, (-38));
(0x121a20dea06aaf, (-39));
(0x1d36fcf880d187, (-41));
(0x1593994cb770ff, (-42));
(0x1cc4cc6649ebff, (-44));
(0x10f7856a3bc8a4, (-45));
(0x11257c5187fd08, (-47));
(0x1c000000000000, (-50));
(0x10000000000000, (-52))]];
   [[(0x10000000000000, (-52))];
[(0x14500000000000, (-44));
(0x197ebeb6d6bbf3, (-48));
(0x10000000000000, (-52))];
[(0x11238000000000, (-38));
(0x158b6ed217a530, (-41));
(0x1447fe6c14733f, (-44));
(0x1974b2334f2346, (-48));
(0x10000000000000, (-52))];
[(0x16fe9000000000, (-34));
(0x15bf1d07830ab7, (-36));
(0x1115eff78ae9e8, (-38));
(0x1571eb04281836, (-41));
(0x142ff9a8d03e1e, (-44));
(0x19608d3c41fb4b, (-48));
(0x10000000000000, (-52))];
[(0x105f8c40000000, (-30));
(0x14be3d2eb2c884, (-32));
(0x16e313928c46ae, (-34));
(0x1593fd817b7fe4, (-36));
(0x10ed5fddda96e1, (-38));
(0x153f017b8d4ab9, (-41));
(0x1407f19f54b323, (-44));
(0x194237aa3e0749, (-48));
(0x10000000000000, (-52))];
[(0x1ca73570000000, (-28));
(0x16d4d58ff4c09b, (-29));
(0x10452f87031e3a, (-30));
(0x148433ac98e703, (-32));
(0x16912096528ed8, (-34));
(0x153e5780d978e0, (-36));
(0x10aa2fb1f612d7, (-38));
(0x14f2ee99c5b2d8, (-41));
(0x13cfe628500dfa, (-44));
(0x19198c8b8307c8, (-48));
(0x10000000000000, (-52))];
[(0x10d2a81a000000, (-25));
(0x103707201fa9c0, (-26));
(0x1c6cc28acbbaa6, (-28));
(0x1681cb2f2da092, (-29));
(0x1fedac57e75f6c, (-31));
(0x141179aff00ee7, (-32));
(0x160a3befae8012, (-34));
(0x14bf5bef64e282, (-36));
(0x104cff722a90b2, (-38));
(0x148e0d865b19b1, (-41));
(0x1387d70a127d2b, (-44));
(0x18e6593d77b0b7, (-48));
(0x10000000000000, (-52))];
[(0x1c198950000000, (-24));
(0x1fe89eaf0682f9, (-25));
(0x10a8c6933ff281, (-25));
(0x1fdbcfa166a3c6, (-27));
(0x1bbf9dc86950cd, (-28));
(0x15de6f17ee8c3b, (-29));
(0x1eed6198784a25, (-31));
(0x1368b94f35e936, (-32));
(0x1550e71b1afb2d, (-34));
(0x1418d137dd0ea7, (-36));
(0x1fad5e37d61f2b, (-39));
(0x1410d8e77b6d9e, (-41));
(0x132fc3f5a064f8, (-44));
(0x18a85c24f70659, (-48));
(0x10000000000000, (-52))];
[(0x11630029800000, (-22));
(0x16d40e7bf8a479, (-23));
(0x1bc63bd5740b21, (-24));
(0x1f3b820e0135dc, (-25));
(0x102d21f4b65cee, (-25));
(0x1ebd8d7330f934, (-27));
(0x1aa648abea3827, (-28));
(0x14f017a9b4ac58, (-29));
(0x1d90a4f7d08cef, (-31));
(0x128dddd49cf419, (-32));
(0x1468962d022320, (-34));
(0x134d0fb1a2e321, (-36));
(0x1e90bd573afec6, (-39));
(0x137bebe1937bac, (-41));
(0x12c7ac82784334, (-44));
(0x185f42f1521411, (-48));
(0x10000000000000, (-52))];
[(0x106bb90ac00000, (-21));
(0x1896aa5bb1fda5, (-22));
(0x1126a531a9d300, (-22));
(0x16420dc269f2c7, (-23));
(0x1ad12e2c237a74, (-24));
(0x1dea6de74db5ea, (-25));
(0x1ecb33ff7f7bde, (-26));
(0x1d1f66bb2c2c3a, (-27));
(0x192b44a25d3508, (-28));
(0x13be83ee1646e8, (-29));
(0x1be12894577db2, (-31));
(0x1185fc2c5b5850, (-32));
(0x1355a1d1736018, (-34));
(0x125efccb24e5ec, (-36));
(0x1d46dc389d1dad, (-39));
(0x12d00366e8ba9b, (-41));
(0x124f90289abe7f, (-44));
(0x180aa84ce72f89, (-48));
(0x10000000000000, (-52))];
[(0x1832f5bf000000, (-21));
(0x1473b25e994ad1, (-21));
(0x1029bfcd9a7fbc, (-21));
(0x17dfdc5496c243, (-22));
(0x1075c47fa20aea, (-22));
(0x152753c9dac84b, (-23));
(0x19488dda9343fb, (-24));
(0x1c07063ef68c45, (-25));
(0x1cb71ff3a15ff6, (-26));
(0x1b12b4f9e0fd68, (-27));
(0x175c954db6db37, (-28));
(0x12538e32feb36a, (-29));
(0x19eadc829ec783, (-31));
(0x105733df981e0d, (-32));
(0x121d354bb71cfa, (-34));
(0x115204e4a16e3d, (-36));
(0x1bd2face8243c6, (-39));
(0x120dffe3a44740, (-41));
(0x11c76e38277ad8, (-44));
(0x17aa10d193c22c, (-48));
(0x10000000000000, (-52))];
[(0x1c48dcbe000000, (-21));
(0x1ac722de00fd76, (-21));
(0x17c354747d5a85, (-21));
(0x13c4a9cfaabb85, (-21));
(0x1ed260d11e5ce0, (-22));
(0x167ff2983917d8, (-22));
(0x1eb90d5abf7753, (-23));
(0x13959e6d9d4768, (-23));
(0x1742bb6dc1b3d2, (-24));
(0x19aa2e5084edb4, (-25));
(0x1a36a0cd9501c9, (-26));
(0x18ad198b4eaecd, (-27));
(0x154b1848790a1d, (-28));
(0x10bac8db5c56ae, (-29));
(0x17bb8d8404b480, (-31));
(0x1e1111edc0b752, (-33));
(0x10c53875b333ec, (-34));
(0x102a13c806b3fd, (-36));
(0x1a38d9068f7b96, (-39));
(0x1136e7573d4836, (-41));
(0x112f45cd83cc9c, (-44));
(0x173ce704fb7b23, (-48));
(0x10000000000000, (-52))];
[(0x1a8addfc800000, (-21));
(0x1bfd2f08b090d6, (-21));
(0x1bb3d45b4bf36d, (-21));
(0x19c10f12c46031, (-21));
(0x167eefe129861e, (-21));
(0x1275d749c56e27, (-21));
(0x1c7302936acd54, (-22));
(0x1490de775dc1ac, (-22));
(0x1bdbc06d98f674, (-23));
(0x11a5947d85ca0f, (-23));
(0x14dc871b5b90c2, (-24));
(0x16f247e4eae11c, (-25));
(0x17669d5160e110, (-26));
(0x16074f42292a06, (-27));
(0x1309b9e013d8ae, (-28));
(0x1e0211878939eb, (-30));
(0x156272b414b26f, (-31));
(0x1b436e708b97cc, (-33));
(0x1ea86b7e16ebd2, (-35));
(0x1dd71749ed0f37, (-37));
(0x187cb6c79620e5, (-39));
(0x104be7f22f8974, (-41));
(0x108715c069bad7, (-44));
(0x16c276054ecf78, (-48));
(0x10000000000000, (-52))];
[(0x142c1959800000, (-21));
(0x1798f054232dd6, (-21));
(0x19eb971de37b05, (-21));
(0x1ac5354c21849f, (-21));
(0x1a04d21e207efa, (-21));
(0x17cf2dfc928f1a, (-21));
(0x1483da6e2bf097, (-21));
(0x10a3d0c38a92c1, (-21));
(0x1964f9c482ab90, (-22));
(0x1236175c77b727, (-22));
(0x188383c0127357, (-23));
(0x1ee94706499af5, (-24));
(0x1236f185e2aafb, (-24));
(0x1401144d71421f, (-25));
(0x14667f254fc9bd, (-26));
(0x133bd12bbc0565, (-27));
(0x10ac9007f6c8a4, (-28));
(0x1a67c2b01ef972, (-30));
(0x12efacec964b67, (-31));
(0x1855fea0b56bdd, (-33));
(0x1ba27857bac39d, (-35));
(0x1b3674e1b16790, (-37));
(0x16a353ee9af4d9, (-39));
(0x1e9cb6ae49809a, (-42));
(0x1f9db916866995, (-45));
(0x1639e2653e421a, (-48));
(0x10000000000000, (-52))];
[(0x18f9a57b000000, (-22));
(0x1029a65524aead, (-21));
(0x13a25d69a37a62, (-21));
(0x166dfd9baae348, (-21));
(0x182165fc9356e3, (-21));
(0x18790682d9f353, (-21));
(0x17699610bf8cf5, (-21));
(0x15223c6d8289e7, (-21));
(0x11ffb1e7ed4b66, (-21));
(0x1ce9fab24f74bf, (-22));
(0x15e322e8438730, (-22));
(0x1f31e3fa18118a, (-23));
(0x14e5b2ec54075b, (-23));
(0x1a44fe204ad737, (-24));
(0x1ee94706499af5, (-25));
(0x10f96140305bcd, (-25));
(0x115644cba66c81, (-26));
(0x10656a38c0b759, (-27));
(0x1c8fcc86860628, (-29));
(0x16c22e4bb5021f, (-30));
(0x1073bb202fd7d1, (-31));
(0x1559dd2586d1f2, (-33));
(0x18877aa5c23950, (-35));
(0x187c9b03cd13e1, (-37));
(0x14b1f04a32481c, (-39));
(0x1c7f95548db638, (-42));
(0x1e0d304d0d0fbd, (-45));
(0x15a22073490376, (-48));
(0x10000000000000, (-52))];
[(0x194322f8000000, (-23));
(0x1210a12daf8101, (-22));
(0x18376f0cff951e, (-22));
(0x1e81eb829a9b17, (-22));
(0x1218801e95c53d, (-21));
(0x143f20c9121898, (-21));
(0x1563adad396678, (-21));
(0x155a325c71b766, (-21));
(0x14267529c8f4a3, (-21));
(0x11fa77c41f7f2a, (-21));
(0x1e5342e8e6d48c, (-22));
(0x1829ea2b6265ca, (-22));
(0x122d26c702d5a7, (-22));
(0x19c8f46c4bf8b1, (-23));
(0x11384517a16ae8, (-23));
(0x159d02a0b1fafc, (-24));
(0x196eacefb35310, (-25));
(0x1bf960b22c342c, (-26));
(0x1ca924a85d8359, (-27));
(0x1b3b86d846c139, (-28));
(0x17de8cce093d16, (-29));
(0x132c1ca48519e6, (-30));
(0x1bfdced6dc955c, (-32));
(0x1260443f962769, (-33));
(0x1566ceb529079c, (-35));
(0x15b48660cb4136, (-37));
(0x12ae4b930cc134, (-39));
(0x1a43e7542bd8cd, (-42));
(0x1c5c8ba190fb2d, (-45));
(0x14f9e6bbc4ecb3, (-48));
(0x10000000000000, (-52))];
[(0x14e1d18d000000, (-24));
(0x10802db6845906, (-23));
(0x1862c62f721040, (-23));
(0x10e895c6d9464f, (-22));
(0x160fd0b2dc6a26, (-22));
(0x1b24389bfcfe3f, (-22));
(0x1f891a7987aad5, (-22));
(0x1152f6254321c3, (-21));
(0x1203c0829d30a2, (-21));
(0x11bd56e4ef6916, (-21));
(0x108c0a222871d6, (-21));
(0x1d3d6e77efce74, (-22));
(0x1876c2e6a9840f, (-22));
(0x135ee6e391f519, (-22));
(0x1d018217edab51, (-23));
(0x1482a08f458323, (-23));
(0x1b5a2eb3f5241f, (-24));
(0x112a5efdd0a02a, (-24));
(0x143ad0e2bd63ca, (-25));
(0x165211fbe4f951, (-26));
(0x16f9c703684bbc, (-27));
(0x15f80e0d838162, (-28));
(0x136915a589f78f, (-29));
(0x1f7ceb69fa3526, (-31));
(0x17416237bb85e0, (-32));
(0x1ef4198520c55e, (-34));
(0x124ff5e9a09b7b, (-35));
(0x12e9b4734d9efc, (-37));
(0x109ea55f9952f2, (-39));
(0x17ed9e4b46e819, (-42));
(0x1a8bc36d45aacd, (-45));
(0x143f9adc3f79ce, (-48));
(0x10000000000000, (-52))];
[(0x1c23fda4000000, (-26));
(0x189b10f0059f67, (-25));
(0x140cf6af8864f8, (-24));
(0x1e968ac3a14d9e, (-24));
(0x15ea7ccb7daadf, (-23));
(0x1d94d53d6773fc, (-23));
(0x12d89a223e0b7e, (-22));
(0x16b54c8314f6f1, (-22));
(0x19e8bb34e36ac5, (-22));
(0x1c05043aa28afe, (-22));
(0x1cbdcf91ce5f5c, (-22));
(0x1bf99131afb3fc, (-22));
(0x19d727d1f4e891, (-22));
(0x16a630b8e69110, (-22));
(0x12d49a8673c7eb, (-22));
(0x1dae55f3660df4, (-23));
(0x16275357378995, (-23));
(0x1f481de83b68ca, (-24));
(0x14dbc568f6101d, (-24));
(0x1a38833e7923b2, (-25));
(0x1eff4d37d60863, (-26));
(0x112e432cc107f3, (-26));
(0x11cc015379589b, (-27));
(0x11275d9f05ed4f, (-28));
(0x1e9c1c04854421, (-30));
(0x191e63a9231727, (-31));
(0x12ce70d9270372, (-32));
(0x196e4fedaa7fa6, (-34));
(0x1ea4755e84a45a, (-36));
(0x1027fd15c944da, (-37));
(0x1d137a1d559be5, (-40));
(0x1581329240b2d4, (-42));
(0x189accc54f09e0, (-45));
(0x137135779c8dca, (-48));
(0x10000000000000, (-52))];
[(0x1ebb3720000000, (-28));
(0x1dd317c309651f, (-27));
(0x1ad85e768a5352, (-26));
(0x1689d5febc77e2, (-25));
(0x11ba975a5ddf06, (-24));
(0x1a397c8c032cc2, (-24));
(0x1249d66c6acbd6, (-23));
(0x181b3e77f2d76a, (-23));
(0x1e1579450b433f, (-23));
(0x11cc40d7b5598a, (-22));
(0x13fce8bc9eda07, (-22));
(0x1552aeb45a8f1b, (-22));
(0x159e785b45d52f, (-22));
(0x14d678d9c084b3, (-22));
(0x13183351042cdd, (-22));
(0x10a190cb6140d7, (-22));
(0x1b86681cd9126f, (-23));
(0x15a02e111a7070, (-23));
(0x101dca3e8909e2, (-23));
(0x16c1c3c661239c, (-24));
(0x1e652903695c90, (-25));
(0x1329ee4024432f, (-25));
(0x16c2d463ff6d30, (-26));
(0x196419c0f24fb3, (-27));
(0x1a834ef1a4105e, (-28));
(0x19ce47e683cf14, (-29));
(0x174b4c36ff1819, (-30));
(0x1360cf490896b0, (-31));
(0x1d7ac4dbaf93f5, (-33));
(0x144c2dfdf2e9a6, (-34));
(0x18f898c4a99c06, (-36));
(0x1af6cbee729c14, (-38));
(0x18eda341ac37a4, (-40));
(0x1303b8e6072ad7, (-42));
(0x1689978e2f1a6f, (-45));
(0x128c17b9337833, (-48));
(0x10000000000000, (-52))];
[(0x1aed9b00000000, (-30));
(0x1d2731623045c4, (-29));
(0x1d142f6f013f0f, (-28));
(0x1aebf9f3195148, (-27));
(0x17447b9fbf16a7, (-26));
(0x12db641d52a93c, (-25));
(0x1cc3d35c97fe89, (-25));
(0x14b506e00ca782, (-24));
(0x1c345381af3d67, (-24));
(0x1234b355401ae9, (-23));
(0x164f90d62351da, (-23));
(0x19fbf4725cf048, (-23));
(0x1cc930feab043e, (-23));
(0x1e5a5d52cfe1f4, (-23));
(0x1e79a23d08dc44, (-23));
(0x1d23c9e6f0ccee, (-23));
(0x1a88b98e3c2b89, (-23));
(0x1700c242ff6e18, (-23));
(0x12f9fa6a984052, (-23));
(0x1dc5d2c0e98df1, (-24));
(0x163018faaa23d3, (-24));
(0x1f60defb8e51e9, (-25));
(0x15052bbd81b072, (-25));
(0x1aa15cef1e9c0b, (-26));
(0x1fd44eacec9c83, (-27));
(0x11e56a2092a23d, (-27));
(0x12ded2c217d538, (-28));
(0x129510dfdaea1e, (-29));
(0x110117c528df53, (-30));
(0x1cbe11e4579ab2, (-32));
(0x164389536cb2a8, (-33));
(0x1f4d8b4b5e6c73, (-35));
(0x13b7a647d2ed3d, (-36));
(0x15dfdd47928689, (-38));
(0x14db42dd029287, (-40));
(0x107aff3dd4a895, (-42));
(0x14580b02bdb55f, (-45));
(0x118cc821d6d3e2, (-48));
(0x10000000000000, (-52))];
[(0x12a47f00000000, (-32));
(0x16b0e5b2b537f4, (-31));
(0x19365b425b2d05, (-30));
(0x19d3ea7f6d2fff, (-29));
(0x18937c205bebea, (-28));
(0x15d8db73767b21, (-27));
(0x123a01f356a43c, (-26));
(0x1ca5555e3a1cfa, (-26));
(0x15440c275fc602, (-25));
(0x1de653ab668b8d, (-25));
(0x13f18aa7642549, (-24));
(0x1948749082adc5, (-24));
(0x1e7f57427bb2aa, (-24));
(0x1184bf3f39b699, (-23));
(0x132ec61656f23e, (-23));
(0x1407c1c7194b3d, (-23));
(0x13f35e404080f2, (-23));
(0x12f4dd08728668, (-23));
(0x112e47ee15a768, (-23));
(0x1db25adf07d623, (-24));
(0x1875f77f8d31f0, (-24));
(0x13304a787b37a8, (-24));
(0x1ca4f974baa394, (-25));
(0x1451462c7fffa5, (-25));
(0x1b594b4900d388, (-26));
(0x116f03009b269d, (-26));
(0x15012a7a3aac4f, (-27));
(0x17da0a5d7c6c81, (-28));
(0x1971e17a67a2d4, (-29));
(0x196699efff288d, (-30));
(0x179d4573228a63, (-31));
(0x1452f0ecfa68e5, (-32));
(0x1012dfbb26d799, (-33));
(0x172461be5f6096, (-35));
(0x1df3ee1a6ba142, (-37));
(0x1122a6936ccf9c, (-38));
(0x10ecd320708fc9, (-40));
(0x1bdb681680d6a1, (-43));
(0x1205ff005531d7, (-45));
(0x106e825da8fc2b, (-48));
(0x10000000000000, (-52))];
[(0x13eb8800000000, (-35));
(0x1b9550d7c59061, (-34));
(0x1134d07efad6a7, (-32));
(0x139bc07e28760e, (-31));
(0x149d9d4088c2a1, (-30));
(0x14259292da3cee, (-29));
(0x1268372cdee30d, (-28));
(0x1f974218fe324f, (-28));
(0x198e16b7a11dfd, (-27));
(0x138bd281d1e51a, (-26));
(0x1c5739d2df1e01, (-26));
(0x1383718100c019, (-25));
(0x198ff9f1b95887, (-25));
(0x1fe5ce54001232, (-25));
(0x12fa2ec0357fde, (-24));
(0x158cb5826f6211, (-24));
(0x175e0599e24e6a, (-24));
(0x183490dc9c8cb0, (-24));
(0x17f51c1bb38d2d, (-24));
(0x16a847fbbd77b9, (-24));
(0x1478b373765257, (-24));
(0x11aa422cc432a0, (-24));
(0x1d19dba67f3d20, (-25));
(0x16dd29471d927c, (-25));
(0x111e4a58ef7270, (-25));
(0x1865e01acd5416, (-26));
(0x10864ec9057bf9, (-26));
(0x153c957c663f66, (-27));
(0x19d67a50047f64, (-28));
(0x1daf11967db057, (-29));
(0x100d08df251cb2, (-29));
(0x1047525ded75d0, (-30));
(0x1ed2a6a067729f, (-32));
(0x1b15e7ea2dfffa, (-33));
(0x15ef7b2dedeb3c, (-34));
(0x1039361a8608e5, (-35));
(0x15a7e77ff22424, (-37));
(0x19ab0dd495c5cc, (-39));
(0x1a67922c8d38af, (-41));
(0x16c739ede33432, (-43));
(0x1f265be16bc610, (-46));
(0x1e54dd4ce75f1d, (-49));
(0x10000000000000, (-52))];
[(0x1fab8000000000, (-39));
(0x19684d63ac23f7, (-37));
(0x1202787e379234, (-35));
(0x170445402176a8, (-34));
(0x1ae2bcb0fb4e20, (-33));
(0x1cfdd8a48ceadc, (-32));
(0x1d13e6fe318404, (-31));
(0x1b48ef3b6f41d7, (-30));
(0x18106219b25064, (-29));
(0x1405bfa8175fa0, (-28));
(0x1f87a447ff7262, (-28));
(0x178d02410772fe, (-27));
(0x10b8e1196abea8, (-26));
(0x169cce2c01d757, (-26));
(0x1d284265eec44a, (-26));
(0x11f1ef1f6c76ca, (-25));
(0x151af342042305, (-25));
(0x17bba7da6b34fb, (-25));
(0x19879e23fbf874, (-25));
(0x1a476feb48813d, (-25));
(0x19e3743d9959e4, (-25));
(0x18686c7209bdbd, (-25));
(0x1604eab1bad786, (-25));
(0x1300284f5269f5, (-25));
(0x1f59734aae256f, (-26));
(0x18b4f0e1951fcc, (-26));
(0x1295bab9178ca6, (-26));
(0x1aa7e39e4d886f, (-27));
(0x1232eaee9a4337, (-27));
(0x179e35c2f52715, (-28));
(0x1d125ebb37a36f, (-29));
(0x10eddd6efa8893, (-29));
(0x12999ea7e85b99, (-30));
(0x1335c79c727fee, (-31));
(0x1291a57a76adfb, (-32));
(0x10b58883892095, (-33));
(0x1bce3ee05fc8fd, (-35));
(0x153595afc13c82, (-36));
(0x1d542568842ba1, (-38));
(0x121a20dea06aaf, (-39));
(0x13851bf2312806, (-41));
(0x11cbc99b6ed888, (-43));
(0x19fe2751ad79b6, (-46));
(0x1b6c30b83593e6, (-49));
(0x10000000000000, (-52))];
[(0x11a00000000000, (-42));
(0x10e40000000000, (-40));
(0x1bb79a3e30273c, (-39));
(0x141a92692c2c22, (-37));
(0x1a4e0600263e76, (-36));
(0x1f79d6a9bc1089, (-35));
(0x11651b95ee2684, (-33));
(0x11e4dceb3229db, (-32));
(0x113b899ecd0129, (-31));
(0x1f37d93617c23d, (-31));
(0x1ab254e01f2a2a, (-30));
(0x159ed70ccc6bb1, (-29));
(0x109fc55b14512b, (-28));
(0x1852bbc7e11552, (-28));
(0x10f59aa1016181, (-27));
(0x1692c80cd9e24a, (-27));
(0x1cb64b657a57ab, (-27));
(0x11776836a251f2, (-26));
(0x1457b47212bfb3, (-26));
(0x16b1701ffc6b11, (-26));
(0x1841f127f42887, (-26));
(0x18da5b1c6a41d1, (-26));
(0x18686c7209bdbd, (-26));
(0x16fa00075ecaa2, (-26));
(0x14ba5a85141680, (-26));
(0x11e9f8bcf5cc3f, (-26));
(0x1da5eddb7fbfc2, (-27));
(0x1779c37089893e, (-27));
(0x11c5426989059f, (-27));
(0x19b14bab3422a9, (-28));
(0x11b6a85237dd4f, (-28));
(0x1741e56292e925, (-29));
(0x1d057b99ad7c6a, (-30));
(0x112b575fea2d2b, (-30));
(0x1335c79c727fee, (-31));
(0x1441cbcb6a3229, (-32));
(0x140d0a37715a4c, (-33));
(0x12897f403fdb53, (-34));
(0x1fd06087a1dac3, (-36));
(0x19238dc74cb7ae, (-37));
(0x121a20dea06aaf, (-38));
(0x176c87ef6e3007, (-40));
(0x1ab1ae692644cd, (-42));
(0x19fe2751ad79b6, (-44));
(0x1491248a282eec, (-46));
(0x18000000000000, (-49));
(0x10000000000000, (-52))];
[(0x18800000000000, (-47));
(0x1db2cfe686fe7c, (-45));
(0x1d146b91b983d9, (-43));
(0x1863cfc8b5f06d, (-41));
(0x1217adad07b3e5, (-39));
(0x18393fd809fd5f, (-38));
(0x1dad00c5df2b26, (-37));
(0x10ccd4bc0486bd, (-35));
(0x11b6d2ae43764e, (-34));
(0x117f2dca11787e, (-33));
(0x1043f613e326fb, (-32));
(0x1c92356db44809, (-32));
(0x17c80370ab2af1, (-31));
(0x12cedaec051551, (-30));
(0x1c53f1738c439b, (-30));
(0x1459a8b6408c01, (-29));
(0x1beee090b6faf3, (-29));
(0x125676f8b7597a, (-28));
(0x170df4cc0180c5, (-28));
(0x1bc6d916102624, (-28));
(0x100be49b66e5a5, (-27));
(0x11c9b9a384911e, (-27));
(0x12ecee7981a53d, (-27));
(0x13547fc0c46c14, (-27));
(0x12f4670c0b75b0, (-27));
(0x11d7d8632b7775, (-27));
(0x101f29f5ba4a63, (-27));
(0x1bf3da933e089d, (-28));
(0x173d5cbdc12947, (-28));
(0x128490b960196d, (-28));
(0x1c42a7f1d04b44, (-29));
(0x14a145d7ce44a9, (-29));
(0x1cc7920976b4fa, (-30));
(0x132735603cc001, (-30));
(0x1847f3879ccc3b, (-31));
(0x1d41c652b292f0, (-32));
(0x10b6104155af78, (-32));
(0x120b800f646364, (-33));
(0x1259cd6bc5328b, (-34));
(0x117f2dca11787e, (-35));
(0x1f1b9770767858, (-37));
(0x1999a5b0c9f1e3, (-38));
(0x1352e2bc61b0ef, (-39));
(0x1a6cffd467fd22, (-41));
(0x10150c2806d8cc, (-42));
(0x10f7856a3bc8a4, (-44));
(0x1db2cfe686fe7c, (-47));
(0x13cc8a99af5452, (-49));
(0x10000000000000, (-52))];
[(0x10000000000000, (-52));
(0x1c48c6001f0abf, (-50));
(0x11800000000000, (-47));
(0x11800000000000, (-45));
(0x1dfe55497a99c3, (-44));
(0x16be626777ca7f, (-42));
(0x1f24a0d001faef, (-41));
(0x13851bf2312806, (-39));
(0x16a0a91648855a, (-38));
(0x1870c9d718cf06, (-37));
(0x18be83f7b6c697, (-36));
(0x1797b93a7fd153, (-35));
(0x1544221bc5cc60, (-34));
(0x122deb67c85466, (-33));
(0x1d8dd0a1eb3af8, (-33));
(0x16e4747fe2e6e4, (-32));
(0x10eddd6efa8893, (-31));
(0x17f102b84bf001, (-31));
(0x10355c1c61f7af, (-30));
(0x1508eb9ca27335, (-30));
(0x1a302bf9d7669a, (-30));
(0x1f4d04960cb6fe, (-30));
(0x11f7f50126a2c3, (-29));
(0x13d362354cbd9e, (-29));
(0x150741dc572960, (-29));
(0x1571dde4bedf42, (-29));
(0x150741dc572960, (-29));
(0x13d362354cbd9e, (-29));
(0x11f7f50126a2c3, (-29));
(0x1f4d04960cb6fe, (-30));
(0x1a302bf9d7669a, (-30));
(0x1508eb9ca27335, (-30));
(0x10355c1c61f7af, (-30));
(0x17f102b84bf001, (-31));
(0x10eddd6efa8893, (-31));
(0x16e4747fe2e6e4, (-32));
(0x1d8dd0a1eb3af8, (-33));
(0x122deb67c85466, (-33));
(0x1544221bc5cc60, (-34));
(0x1797b93a7fd153, (-35));
(0x18be83f7b6c697, (-36));
(0x1870c9d718cf06, (-37));
(0x16a0a91648855a, (-38));
(0x13851bf2312806, (-39));
(0x1f24a0d001faef, (-41));
(0x16be626777ca7f, (-42));
(0x1dfe55497a99c3, (-44));
(0x11800000000000, (-45));
(0x11800000000000, (-47));
(0x1c48c6001f0abf, (-50));
(0x10000000000000, (-52))]];
   [[(0x1a000000000000, (-48));
(0x10000000000000, (-52))];
[(0x16da0000000000, (-41));
(0x151bff9efb4265, (-44));
(0x19fb1339d2c7df, (-48));
(0x10000000000000, (-52))];
[(0x17fe8000000000, (-36));
(0x12830aa8a35001, (-38));
(0x16ccfc4b426834, (-41));
(0x150bfc943d4c7f, (-44));
(0x19ec474a261263, (-48));
(0x10000000000000, (-52))];
[(0x17d0cc00000000, (-32));
(0x19d1ee00a73c05, (-34));
(0x17e79b13dfadf3, (-36));
(0x1266dfeda1dd86, (-38));
(0x16a5ffe964c1e0, (-41));
(0x14ebf670cac4e0, (-44));
(0x19d38b395ad1b2, (-48));
(0x10000000000000, (-52))];
[(0x1b49e9c0000000, (-29));
(0x131eac61aa8320, (-30));
(0x17b0b86603a7e5, (-32));
(0x1996a588d6edd2, (-34));
(0x17a33a678a26e9, (-36));
(0x122eca7707cf29, (-38));
(0x1665372b2ec304, (-41));
(0x14bbed1814b434, (-44));
(0x19b0c25315c2cd, (-48));
(0x10000000000000, (-52))];
[(0x142ffcec000000, (-26));
(0x11681652e79c18, (-27));
(0x1b1a1e4d230cc6, (-29));
(0x12e39c3bc28d7f, (-30));
(0x175134f96e009b, (-32));
(0x192122fe520bcf, (-34));
(0x173247afae3249, (-36));
(0x11db4a439c723e, (-38));
(0x160aec49d24239, (-41));
(0x147be05da27295, (-44));
(0x1983c37ca9aa04, (-48));
(0x10000000000000, (-52))];
[(0x14b48020000000, (-24));
(0x154789a2e10544, (-25));
(0x140423d755562b, (-26));
(0x11240d24b8260a, (-27));
(0x1a8c3db610011b, (-29));
(0x126f128ae24f71, (-30));
(0x16b463ccbb498b, (-32));
(0x18737f2b3fd90c, (-34));
(0x16964681bd56c0, (-36));
(0x116d1f516f97b3, (-38));
(0x159787f5ce2279, (-41));
(0x142bd002f3235f, (-44));
(0x194c583ada5b52, (-48));
(0x10000000000000, (-52))];
[(0x1ee8e3d8000000, (-23));
(0x128427e3a2b216, (-23));
(0x147e641ee23e2d, (-24));
(0x14e22de354f86e, (-25));
(0x138264d56f6d9f, (-26));
(0x109e71047e4bd6, (-27));
(0x19a4bee75cd33f, (-29));
(0x11c430729c256f, (-30));
(0x15ddc5795db7eb, (-32));
(0x1790d53eb1338f, (-34));
(0x15d1516afc7350, (-36));
(0x10e5499db5708f, (-38));
(0x150b922545462d, (-41));
(0x13cbbbb4605f4a, (-44));
(0x190a3b58a0599b, (-48));
(0x10000000000000, (-52))];
[(0x11630029800000, (-21));
(0x17e550b43c5b1b, (-22));
(0x1e89aa4d97b13d, (-23));
(0x121b4e26dfc456, (-23));
(0x13ded0728f25f2, (-24));
(0x141c1a76f4893a, (-25));
(0x12b00c71dc1b34, (-26));
(0x1fb8245a1bfd8c, (-28));
(0x186ae362c83b34, (-29));
(0x10e789ba8a9f24, (-30));
(0x14d224fd723587, (-32));
(0x167d36cc699754, (-34));
(0x14e615d297df37, (-36));
(0x104509248fb77e, (-38));
(0x1467b328994588, (-41));
(0x135ba304b4da7b, (-44));
(0x18bd171a07e38a, (-48));
(0x10000000000000, (-52))];
[(0x1e3fb32ec00000, (-21));
(0x178fc111ec6257, (-21));
(0x1124beed69e820, (-21));
(0x17472ad0e138ca, (-22));
(0x1d71d10bd5ca7a, (-23));
(0x114f747237861f, (-23));
(0x12ddd60b4d83b4, (-24));
(0x12fe4fe0fceb8d, (-25));
(0x1195a04f057ddd, (-26));
(0x1dc7c712dde38c, (-28));
(0x16e871bfbe6044, (-29));
(0x1fbe032eced613, (-31));
(0x13977bd7c24f0e, (-32));
(0x153d9bcc8d6943, (-34));
(0x13d7ce9b2c8de4, (-36));
(0x1f1bbbc179be51, (-39));
(0x13acb50ed79652, (-41));
(0x12db856701bebb, (-44));
(0x186482dd565021, (-48));
(0x10000000000000, (-52))];
[(0x14bdf736000000, (-20));
(0x1226384f400000, (-20));
(0x1dc30ed34589b1, (-21));
(0x16dba93c8d3580, (-21));
(0x106e789371cdbb, (-21));
(0x16155cc8e057dc, (-22));
(0x1bb253e9f27031, (-23));
(0x102bdc09b027bf, (-23));
(0x118849bbfd2833, (-24));
(0x1195a04f057ddd, (-25));
(0x103e6c95ed64d8, (-26));
(0x1b7d554c7e0d1f, (-28));
(0x1529577489e40d, (-29));
(0x1d6339c3a37695, (-31));
(0x1234ceaf54a35e, (-32));
(0x13d7ce9b2c8de4, (-34));
(0x12aa3d7415d897, (-36));
(0x1d830f9643617c, (-39));
(0x12db856701bebb, (-41));
(0x124b622600bc19, (-44));
(0x18000000000000, (-48));
(0x10000000000000, (-52))];
[(0x16c02bfd000000, (-20));
(0x16361d0de58fd6, (-20));
(0x145c454cbd192f, (-20));
(0x118753dc611ea5, (-20));
(0x1c5794235fcd56, (-21));
(0x15817028a0dd4d, (-21));
(0x1e9a6033b98609, (-22));
(0x1463e8612fda68, (-22));
(0x1965e88354e4c4, (-23));
(0x1d80a594096a92, (-24));
(0x1fddca78c977b6, (-25));
(0x1fe3d4dbb0ed84, (-26));
(0x1d6fd82d40db3f, (-27));
(0x18ed34908b6354, (-28));
(0x133b34f09dd77b, (-29));
(0x1ace957581e718, (-31));
(0x10b202ebb578e0, (-32));
(0x125253f79b4756, (-34));
(0x1161a2c5f4a1ba, (-36));
(0x1bc40db435aac7, (-39));
(0x11f5376fc444a1, (-41));
(0x11ab3857f1c6d5, (-44));
(0x178ef5ca97b3c7, (-48));
(0x10000000000000, (-52))];
[(0x142c1959800000, (-20));
(0x15dd4d5bcac89f, (-20));
(0x164636c1c31520, (-20));
(0x15589f245af43f, (-20));
(0x13409bb3b850e0, (-20));
(0x1057c5503d2dc9, (-20));
(0x1a1b5930412f13, (-21));
(0x139b77e1b4fc38, (-21));
(0x1baa399ae697d8, (-22));
(0x124e7a9f6e5ed2, (-22));
(0x16aec2146ccb60, (-23));
(0x1a40044891f10c, (-24));
(0x1c4a4cc0509900, (-25));
(0x1c4a4cc0509900, (-26));
(0x1a222665d46bfe, (-27));
(0x162db813f89958, (-28));
(0x112cd7dba4ea78, (-29));
(0x181149bb3cd337, (-31));
(0x1e2f5b7914b7d7, (-33));
(0x10b44f038360a7, (-34));
(0x1002b4200616d8, (-36));
(0x19e33600f058e6, (-39));
(0x10fb06cd4a13c8, (-41));
(0x10fb06cd4a13c8, (-44));
(0x1710ac0b5e5e31, (-48));
(0x10000000000000, (-52))];
[(0x1d23410f800000, (-21));
(0x11783dae490e9a, (-20));
(0x13b14d5791dd09, (-20));
(0x14e5c8afb2634f, (-20));
(0x14e5c8afb2634f, (-20));
(0x13b45abcfdb2c8, (-20));
(0x1185ee457f66ac, (-20));
(0x1d6455972287a2, (-21));
(0x173c823353b622, (-21));
(0x114dab113d69d1, (-21));
(0x183f4921f8a248, (-22));
(0x1febccd208e6a5, (-23));
(0x13b3be98382169, (-23));
(0x16c003b65c5971, (-24));
(0x188003ff77253e, (-25));
(0x1884a8eaf0849a, (-26));
(0x16b30ece3f37ec, (-27));
(0x13561c7c7e309c, (-28));
(0x1e1b5013c2e688, (-30));
(0x153d523ffb383e, (-31));
(0x1addba54d72cc4, (-33));
(0x1e0ac2831530ae, (-35));
(0x1d2522092fc11f, (-37));
(0x17e58857df939c, (-39));
(0x1fdcb5ca7f6f7b, (-42));
(0x103acbf78a9578, (-44));
(0x168443dcc7be4a, (-48));
(0x10000000000000, (-52))];
[(0x1139694c000000, (-21));
(0x16cc92ed8f1c91, (-21));
(0x1c59eaf2aa6739, (-21));
(0x10980dbda9bbd9, (-20));
(0x125050d441e2d9, (-20));
(0x1313a987c4a1a2, (-20));
(0x12c50e1f1c750f, (-20));
(0x11735afa8c501f, (-20));
(0x1ea9feda3f9db3, (-21));
(0x197443c23f8de6, (-21));
(0x13f3d9d974d615, (-21));
(0x1d83447c50fa89, (-22));
(0x1491bd8314917f, (-22));
(0x1afa6e7dc017ad, (-23));
(0x109d424241d9d1, (-23));
(0x132b9b38c222b7, (-24));
(0x14a90728b99dba, (-25));
(0x14b8beea738917, (-26));
(0x13419d240dd76f, (-27));
(0x107d7815923202, (-28));
(0x19da18c263b40f, (-30));
(0x1264dbbdc8a007, (-31));
(0x1781b7d202005b, (-33));
(0x1a9b0d26a9df3d, (-35));
(0x1a2d6bd34670f1, (-37));
(0x15d08485655e1e, (-39));
(0x1da19619da5cd7, (-42));
(0x1ed50b87ba1f4c, (-45));
(0x15e8add236a58e, (-48));
(0x10000000000000, (-52))];
[(0x10b4a7a4000000, (-22));
(0x1862c62f721040, (-22));
(0x10b222a22c1f90, (-21));
(0x1580cf31cd0798, (-21));
(0x1a1a95c91036d2, (-21));
(0x1dead18106f0a8, (-21));
(0x103486d08e6d05, (-20));
(0x109bd343c06c42, (-20));
(0x101ce05a7c440c, (-20));
(0x1d99a870d46299, (-21));
(0x19bdbb28e9c11f, (-21));
(0x152fb5dd86812f, (-21));
(0x107e5a52fc4d48, (-21));
(0x1844a038f1fa2a, (-22));
(0x10d9d496d25a90, (-22));
(0x160d57077b0d2d, (-23));
(0x1b241c57f9e8d5, (-24));
(0x1f56fcb83aa40f, (-25));
(0x10ece8863d1cc0, (-25));
(0x110a0af9074f5a, (-26));
(0x1fd607a2fa3e2b, (-28));
(0x1b7358c6231f69, (-29));
(0x15b39afd5285e0, (-30));
(0x1f334d6624d9a6, (-32));
(0x142de1878778b1, (-33));
(0x1729da6d03f9c1, (-35));
(0x1729da6d03f9c1, (-37));
(0x13aa2a3f15d914, (-39));
(0x1b48478caec8c1, (-42));
(0x1d1462c40e65c6, (-45));
(0x153c9c576aef0a, (-48));
(0x10000000000000, (-52))];
[(0x1a93c4e2000000, (-24));
(0x1565d57e2c2dfb, (-23));
(0x101f0edb1936b9, (-22));
(0x16cf949c8d648c, (-22));
(0x1e6458a4d66c4d, (-22));
(0x131b26c65e727d, (-21));
(0x16b54c8314f6f1, (-21));
(0x198bf6137795cf, (-21));
(0x1b3aeb4680e6c6, (-21));
(0x1b849149bdab20, (-21));
(0x1a5ffd82a12183, (-21));
(0x17fa9ac3ea52b5, (-21));
(0x14acffd7c60fb8, (-21));
(0x10e69fc8a3f51d, (-21));
(0x1a2d1a2d4542a1, (-22));
(0x132f83125ee1e9, (-22));
(0x1a95973575d84d, (-23));
(0x1161cf2ccd0d6d, (-23));
(0x1568be5f97d3ec, (-24));
(0x18c6ba70fdda2a, (-25));
(0x1adc8f4c879a89, (-26));
(0x1b2f69b1b66e28, (-27));
(0x199242f11404fa, (-28));
(0x163ccd3109113a, (-29));
(0x11c2f8cd169fb3, (-30));
(0x19d8d0e56cf849, (-32));
(0x10f435491c5519, (-33));
(0x13c7937ff66348, (-35));
(0x14267bef06a95a, (-37));
(0x1178f916d4914d, (-39));
(0x18d4dac4f9a28b, (-42));
(0x1b3395d5230135, (-45));
(0x147e7054af0989, (-48));
(0x10000000000000, (-52))];
[(0x11494f02000000, (-25));
(0x1ec149ac198369, (-25));
(0x198302c3face68, (-24));
(0x13d24c9b837b24, (-23));
(0x1cf37d09d0c20e, (-23));
(0x13edea0b2fd4a0, (-22));
(0x19ebe18c06effc, (-22));
(0x1fe8a57c4db129, (-22));
(0x129d0b332d5202, (-21));
(0x149a63a2ce7fcf, (-21));
(0x15a75177016c32, (-21));
(0x159e785b45d52f, (-21));
(0x1482759a72de97, (-21));
(0x127cfad0289380, (-21));
(0x1faa29d4e1d87c, (-22));
(0x19bf4f564dacb2, (-22));
(0x13dd4e55f776c3, (-22));
(0x1d0ddfacac3e20, (-23));
(0x141d4c1514c88c, (-23));
(0x1a52aeb281f2b5, (-24));
(0x103f34803a0413, (-24));
(0x12df5a17406da9, (-25));
(0x1491aeed9b1e6d, (-26));
(0x14f5d6a222143d, (-27));
(0x13e27b353b0c46, (-28));
(0x117879293f5213, (-29));
(0x1c3f8f8981a395, (-31));
(0x14d85f1bebaa1f, (-32));
(0x1bcb297a8f8d7f, (-34));
(0x10844e28b541f8, (-35));
(0x112fafd3bfe48b, (-37));
(0x1e87e0c92c926c, (-40));
(0x164be909763d0f, (-42));
(0x19329997c57132, (-45));
(0x13ac1cdf963908, (-48));
(0x10000000000000, (-52))];
[(0x1245cdc0000000, (-27));
(0x120490584dcbf9, (-26));
(0x107c74d39a11c6, (-25));
(0x1c27cd2948a6d8, (-25));
(0x1689d5febc77e2, (-24));
(0x10f95ec9db1d5d, (-23));
(0x181f82680858f9, (-23));
(0x1036016678eb24, (-22));
(0x14a4bcd6725b7c, (-22));
(0x18f1b9831f83e0, (-22));
(0x1ca218e5cf6878, (-22));
(0x1f4024cc0f5655, (-22));
(0x10396f3f1c5b49, (-21));
(0x100879109ff949, (-21));
(0x1e299d68438557, (-22));
(0x1b00f599dcc613, (-22));
(0x1700c242ff6e18, (-22));
(0x12a2709c01cdcf, (-22));
(0x1cb0929a223627, (-23));
(0x14f7300e2cb16b, (-23));
(0x1d0cfe530c0086, (-24));
(0x130d19ab041f72, (-24));
(0x179af24a503a5c, (-25));
(0x1b90a421e6278e, (-26));
(0x1e40010725b5b5, (-27));
(0x1f16d3152bfd9d, (-28));
(0x1dcc46ac542ccd, (-29));
(0x1a7fce24b36bca, (-30));
(0x15ba2d9286494b, (-31));
(0x104ba22de4b6f8, (-32));
(0x16226e6f6d2910, (-34));
(0x1adec96c30a074, (-36));
(0x1ca3f18b82022f, (-38));
(0x1a251e3c49dae8, (-40));
(0x13b2aa7c752577, (-42));
(0x17115d9e3bd1d8, (-45));
(0x12c2fc595456a6, (-48));
(0x10000000000000, (-52))];
[(0x1f122900000000, (-30));
(0x11119eb7f17510, (-28));
(0x114921088b8328, (-27));
(0x10416d13e85a78, (-26));
(0x1c8e0b7a5d5d7c, (-26));
(0x1787ca3921f62d, (-25));
(0x124219ef46484e, (-24));
(0x1ac246b3f396ba, (-24));
(0x128ff447a26ecc, (-23));
(0x186cfc64a4ffcd, (-23));
(0x1e883b7dce3fc0, (-23));
(0x12264c12dff8b8, (-22));
(0x148ad502926c9b, (-22));
(0x1626791ec4e3b7, (-22));
(0x16c3c5fe1be977, (-22));
(0x164e36118434ef, (-22));
(0x14d678d9c084b3, (-22));
(0x128eafb94fcd35, (-22));
(0x1f7f83df27b2ea, (-23));
(0x1975a963bfba24, (-23));
(0x139595fdf5f1a6, (-23));
(0x1ca4f974baa394, (-24));
(0x13e3c2e76fc98f, (-24));
(0x1a2f3a8ef9e230, (-25));
(0x104ec3e422d638, (-25));
(0x132ca8909d1b8b, (-26));
(0x1538e3abf48c57, (-27));
(0x16092fac9b1a56, (-28));
(0x1560c1279a47ef, (-29));
(0x1347f17e90d1b2, (-30));
(0x1011493ece0414, (-31));
(0x188d92e36f125a, (-33));
(0x11083a199833cd, (-34));
(0x152e0b9d065a7d, (-36));
(0x17338d987f8fc4, (-38));
(0x15d9a71440bbe4, (-40));
(0x110f13aad65aed, (-42));
(0x14cfc8a5c43b10, (-45));
(0x11bf8c9d2ed1a1, (-48));
(0x10000000000000, (-52))];
[(0x14ea8200000000, (-32));
(0x19cf38be7841fa, (-31));
(0x1d157ecdb5bdf9, (-30));
(0x1e3a8066d18cb0, (-29));
(0x1d32085ecd29fe, (-28));
(0x1a5adda9f7c50b, (-27));
(0x16568e1bb1d2ff, (-26));
(0x11d7c3ceff3d93, (-25));
(0x1af14b04ecb77a, (-25));
(0x134616481da405, (-24));
(0x1a2e173020abfc, (-24));
(0x10e86ef9bfc468, (-23));
(0x14cb7445e51346, (-23));
(0x186072d546b3cf, (-23));
(0x1b422572834175, (-23));
(0x1d178ea3499131, (-23));
(0x1da53656fee10f, (-23));
(0x1cd93dfecb4a50, (-23));
(0x1acefc39686504, (-23));
(0x17c924efee43f9, (-23));
(0x14242b023807e2, (-23));
(0x104498e440f2ac, (-23));
(0x190bd11fa74f04, (-24));
(0x125b7ba0ac63ce, (-24));
(0x1996bab9882e5b, (-25));
(0x10eec6890f6e36, (-25));
(0x153c957c663f66, (-26));
(0x192efed6d1b41e, (-27));
(0x1c291c0c0c9c0c, (-28));
(0x1d98af7f4187ca, (-29));
(0x1d1ebb5504daad, (-30));
(0x1ab1810def1dca, (-31));
(0x16a95268992681, (-32));
(0x11af587cf9e35c, (-33));
(0x19222099a92042, (-35));
(0x100f782ee0ad83, (-36));
(0x12266fd6197969, (-38));
(0x11b675442871da, (-40));
(0x1ccffb8eb6e94b, (-43));
(0x126db1c10f73f3, (-45));
(0x109cfdcd8ed008, (-48));
(0x10000000000000, (-52))];
[(0x15c5e800000000, (-35));
(0x1e896ef1b0bcc3, (-34));
(0x134cd1abaa51b1, (-32));
(0x164add35d312e4, (-31));
(0x17c3899e73b58d, (-30));
(0x178e4005b27ed3, (-29));
(0x15d6ace8a2e85c, (-28));
(0x130635e660030f, (-27));
(0x1f42929137aed7, (-27));
(0x184b9e1edddfef, (-26));
(0x11e820ec5c00df, (-25));
(0x191551a6201dfc, (-25));
(0x10b8e1196abea8, (-24));
(0x154077980003a6, (-24));
(0x19c58917cd647c, (-24));
(0x1dd8ececafa8ff, (-24));
(0x10847a368839f6, (-23));
(0x117aa1af06c71c, (-23));
(0x11b08b7472c1c7, (-23));
(0x111fa61916bcac, (-23));
(0x1fb4f0bc820535, (-24));
(0x1c11afe98b33cd, (-24));
(0x17c03263270472, (-24));
(0x133290888a9689, (-24));
(0x1d9f56794ba789, (-25));
(0x15caeea63e7458, (-25));
(0x1e89bf4372d483, (-26));
(0x1458d40e4a7d58, (-26));
(0x19bcb460cb691e, (-27));
(0x1ed5d353485431, (-28));
(0x11733eea6a9da6, (-28));
(0x12999ea7e85b99, (-29));
(0x12999ea7e85b99, (-30));
(0x115ea108de4dd9, (-31));
(0x1e1f6ec867c467, (-33));
(0x181494df20ab6f, (-34));
(0x1195f94bf35986, (-35));
(0x172fb5efd70028, (-37));
(0x1b27314df0a006, (-39));
(0x1b9afac3f945e8, (-41));
(0x178abd8bace9f6, (-43));
(0x1fd5a3f6af6b74, (-46));
(0x1ea8cfb64547ab, (-49));
(0x10000000000000, (-52))];
[(0x10e40000000000, (-38));
(0x1b6d4d0bcac380, (-37));
(0x13ae35fd7992de, (-35));
(0x197830ae3f6a33, (-34));
(0x1e22cb0469ee57, (-33));
(0x1076cc68589306, (-31));
(0x10bd0143861373, (-30));
(0x1fda62ed00bfa3, (-30));
(0x1c7f86b1b7d727, (-29));
(0x18106219b25064, (-28));
(0x133ca8f6e73084, (-27));
(0x1d30e35d872023, (-27));
(0x15108268ad9364, (-26));
(0x1cf6b34feeaaaa, (-26));
(0x12ff91be7a506e, (-25));
(0x17ce8ad1181818, (-25));
(0x1c85c6f6053284, (-25));
(0x10591b74aeef76, (-24));
(0x11f0c394f9f7e3, (-24));
(0x12dadfa398128b, (-24));
(0x12fb545fcc9508, (-24));
(0x124e5155874e4e, (-24));
(0x10e908ed1224e9, (-24));
(0x1deb0fcad154fe, (-25));
(0x19558b146de29c, (-25));
(0x1485e3fa2d0e88, (-25));
(0x1fc94216bbb554, (-26));
(0x17821ac335e3b7, (-26));
(0x1095a04440b323, (-26));
(0x1649fc4de0f6f6, (-27));
(0x1c7c00ee2a5763, (-28));
(0x11456d38cc491e, (-28));
(0x13d34d8fb26c9a, (-29));
(0x157a3eb1014afd, (-30));
(0x15e14cc91a1903, (-31));
(0x14dea327c6fafa, (-32));
(0x12897f403fdb53, (-33));
(0x1e75a5bad72638, (-35));
(0x16f2d47ab80395, (-36));
(0x1f5a8bbbac7959, (-38));
(0x132025a5809834, (-39));
(0x14634f6fc5c582, (-41));
(0x12613276e340e9, (-43));
(0x1a8d45215b8101, (-46));
(0x1bb67ae8584caa, (-49));
(0x10000000000000, (-52))];
[(0x12600000000000, (-42));
(0x11cec1fa4cbd43, (-40));
(0x1d8f0000000000, (-39));
(0x15b12ff5d5c454, (-37));
(0x1cb9c6f39849f5, (-36));
(0x116623493a981c, (-34));
(0x13798881da7451, (-33));
(0x144b4ad995d79a, (-32));
(0x13ce1612325022, (-31));
(0x122f733ffe8e08, (-30));
(0x1f8aaaf3640123, (-30));
(0x19ea42430eccbb, (-29));
(0x14395e684fd0cc, (-28));
(0x1e0bd8e7d9cf0b, (-28));
(0x1548644ee4f2a8, (-27));
(0x1ccaf49c631db8, (-27));
(0x129f406079fca2, (-26));
(0x170df4cc0180c5, (-26));
(0x1b56dbf0543ca1, (-26));
(0x1f12e68c7dd3c0, (-26));
(0x10ef0466b83ef7, (-25));
(0x11b404baa090a5, (-25));
(0x11c17c9286405b, (-25));
(0x1115e58306d19e, (-25));
(0x1f8ae2ca82be10, (-26));
(0x1bec7523b24f54, (-26));
(0x17b2ab943c8607, (-26));
(0x1344f35a67ba69, (-26));
(0x1e0097fa67d546, (-27));
(0x16577f6f1089a2, (-27));
(0x1fcafcf00a54ad, (-28));
(0x1595ad871907bc, (-28));
(0x1beb97dd7762a3, (-29));
(0x112b575fea2d2b, (-29));
(0x1407e5efe68a07, (-30));
(0x161b5896ec6314, (-31));
(0x1700baff6fd27d, (-32));
(0x16799c0373d335, (-33));
(0x14844d8346931c, (-34));
(0x1163c873e1401e, (-35));
(0x1b27314df0a006, (-37));
(0x1352e2bc61b0ef, (-38));
(0x18b813d2a8c275, (-40));
(0x1bdaef77d97e05, (-42));
(0x1ad3b5bf7c9eb5, (-44));
(0x15000000000000, (-46));
(0x183fab8b4d4315, (-49));
(0x10000000000000, (-52))];
[(0x19000000000000, (-47));
(0x1ea00000000000, (-45));
(0x1e4f966e2093da, (-43));
(0x19b40000000000, (-41));
(0x13482aa1a19212, (-39));
(0x1a1d40805be625, (-38));
(0x102f625006e0d9, (-36));
(0x128c207bab7af8, (-35));
(0x13cc93f37f74af, (-34));
(0x13ce1612325022, (-33));
(0x12a6d21a4028a5, (-32));
(0x1099d33cbb5eea, (-31));
(0x1c042bf577c892, (-31));
(0x1678a1c93c3d54, (-30));
(0x112b575fea2d2b, (-29));
(0x1909df6be02c89, (-29));
(0x11733eea6a9da6, (-28));
(0x17471078987bca, (-28));
(0x1dbf6d6a54851f, (-28));
(0x1239e7f58d7dc0, (-27));
(0x156e2369b7e17b, (-27));
(0x1830e1b75059f4, (-27));
(0x1a3a19f80a518d, (-27));
(0x1b510e6b44b1c7, (-27));
(0x1b563c04d7b5ca, (-27));
(0x1a4912536cf3b8, (-27));
(0x18480cd1209e06, (-27));
(0x158b279e0879d8, (-27));
(0x125a0c5619a558, (-27));
(0x1e0097fa67d546, (-28));
(0x17848624116874, (-28));
(0x11a9a8f7222f0a, (-28));
(0x1964cc2677ccdd, (-29));
(0x11733eea6a9da6, (-29));
(0x16e4747fe2e6e4, (-30));
(0x1c9d919fdba09d, (-31));
(0x110157d68e7399, (-31));
(0x132b467f87da13, (-32));
(0x146e8dd497d747, (-33));
(0x14844d8346931c, (-34));
(0x13526cf2888021, (-35));
(0x10f87ed0b66404, (-36));
(0x1b9afac3f945e8, (-38));
(0x149965da374cb7, (-39));
(0x1bdaef77d97e05, (-41));
(0x10c45197ade331, (-42));
(0x11800000000000, (-44));
(0x1e4f966e2093da, (-47));
(0x14000000000000, (-49));
(0x10000000000000, (-52))];
[(0x10000000000000, (-52));
(0x1c90d29d2d43cd, (-50));
(0x11da83a23c4a60, (-47));
(0x1209e0d8506b3f, (-45));
(0x1f3e665be98228, (-44));
(0x17f2a84a881a8d, (-42));
(0x1093c162b47630, (-40));
(0x1503f12149ba64, (-39));
(0x18a48a84910fb9, (-38));
(0x1aeea5227cd0f5, (-37));
(0x1b98e8aa15a895, (-36));
(0x1aa3cede16425d, (-35));
(0x18519ac2d4cc8c, (-34));
(0x150f881c486a5e, (-33));
(0x11594c5f416819, (-32));
(0x1b3f56351a64eb, (-32));
(0x146f80a7d3cbb0, (-31));
(0x1d52796da40eaa, (-31));
(0x142654c243aaa3, (-30));
(0x1a8e20f3c3bfa8, (-30));
(0x10cb839d1dd700, (-29));
(0x1467d93ba1d1ad, (-29));
(0x17d424115b1039, (-29));
(0x1ac1c0e9269dfd, (-29));
(0x1ce69456576c22, (-29));
(0x1e08d44ceefa17, (-29));
(0x1e08d44ceefa17, (-29));
(0x1ce69456576c22, (-29));
(0x1ac1c0e9269dfd, (-29));
(0x17d424115b1039, (-29));
(0x1467d93ba1d1ad, (-29));
(0x10cb839d1dd700, (-29));
(0x1a8e20f3c3bfa8, (-30));
(0x142654c243aaa3, (-30));
(0x1d52796da40eaa, (-31));
(0x146f80a7d3cbb0, (-31));
(0x1b3f56351a64eb, (-32));
(0x11594c5f416819, (-32));
(0x150f881c486a5e, (-33));
(0x18519ac2d4cc8c, (-34));
(0x1aa3cede16425d, (-35));
(0x1b98e8aa15a895, (-36));
(0x1aeea5227cd0f5, (-37));
(0x18a48a84910fb9, (-38));
(0x1503f12149ba64, (-39));
(0x1093c162b47630, (-40));
(0x17f2a84a881a8d, (-42));
(0x1f3e665be98228, (-44));
(0x1209e0d8506b3f, (-45));
(0x11da83a23c4a60, (-47));
(0x1c90d29d2d43cd, (-50));
(0x10000000000000, (-52))]];
   [[(0x10000000000000, (-52))];
[(0x15f00000000000, (-44));
(0x1a7ecad724e985, (-48));
(0x10000000000000, (-52))];
[(0x13fec000000000, (-38));
(0x182f0edd898d67, (-41));
(0x15e7fe8a0ae835, (-44));
(0x1a751f9447b724, (-48));
(0x10000000000000, (-52))];
[(0x1cfe3000000000, (-34));
(0x1a60185117f9aa, (-36));
(0x13f01aa2d6ef44, (-38));
(0x18148b35155fd9, (-41));
(0x15cffa21bd3185, (-44));
(0x1a61be6cfec996, (-48));
(0x10000000000000, (-52))];
[(0x1653bf40000000, (-30));
(0x1b33085fb2d391, (-32));
(0x1cde2045cc02f1, (-34));
(0x1a2fb137366591, (-36));
(0x13c44a8b16581e, (-38));
(0x17dfa0d5b59a97, (-41));
(0x15a7f2b3843a78, (-44));
(0x1a4491e34f47d9, (-48));
(0x10000000000000, (-52))];
[(0x15261528000000, (-27));
(0x1032519bb44c2b, (-28));
(0x16328404fbed2b, (-30));
(0x1aeca57e3355cb, (-32));
(0x1c7e7dc9c57b28, (-34));
(0x19cf820e8753eb, (-36));
(0x137bafb7e97dc8, (-38));
(0x179089d70a5bb8, (-41));
(0x156fe81dcd60b9, (-44));
(0x1a1d79241626a3, (-48));
(0x10000000000000, (-52))];
[(0x1aeaa690000000, (-25));
(0x18eb80bb503e9e, (-26));
(0x14fe3e4de300b9, (-27));
(0x1ff7c208fbf263, (-29));
(0x15cfae8a8d4cd3, (-30));
(0x1a6162ffffd454, (-32));
(0x1be0eca3a557cb, (-34));
(0x1940c7cb7c8dfe, (-36));
(0x1316ea27de211b, (-38));
(0x17279de17a0dc5, (-41));
(0x1527da2f8373c3, (-44));
(0x19ec474a261263, (-48));
(0x10000000000000, (-52))];
[(0x186704b8000000, (-23));
(0x1a989dbc5e6aea, (-24));
(0x1aacd98e66d801, (-25));
(0x1883c3a201b0c0, (-26));
(0x14881d1c325b36, (-27));
(0x1f214c8e157e18, (-29));
(0x152dcd2b66963a, (-30));
(0x19943f261df3a3, (-32));
(0x1b08225031401b, (-34));
(0x18855b05947961, (-36));
(0x1296d9d8cb2177, (-38));
(0x16a552d23b5dc8, (-41));
(0x14cfc8a5c43b10, (-44));
(0x19b0c25315c2cd, (-48));
(0x10000000000000, (-52))];
[(0x106bb90ac00000, (-21));
(0x14ac959aace19c, (-22));
(0x18246833d505c8, (-23));
(0x1a139a4246662f, (-24));
(0x19f62c41feec65, (-25));
(0x17b85f17fe59f3, (-26));
(0x13c7cc57e1b0ec, (-27));
(0x1de7be48adcc30, (-29));
(0x14510daadbf4dd, (-30));
(0x1889a2b1c9ae1a, (-32));
(0x19f7dbb113496a, (-34));
(0x179fac8688f94b, (-36));
(0x11fc9ec7a8f350, (-38));
(0x160a3d9dd65545, (-41));
(0x1467b328994588, (-44));
(0x196aa1b6b0ec77, (-48));
(0x10000000000000, (-52))];
[(0x10e75c9a200000, (-20));
(0x183e9fb467bf9b, (-21));
(0x10375682e8bd6a, (-21));
(0x1432e646dda7bc, (-22));
(0x176027444661a4, (-23));
(0x19100fe7c9cd6c, (-24));
(0x18cea3596f4f69, (-25));
(0x1691499e0b6aba, (-26));
(0x12c3f0d7c1b63b, (-27));
(0x1c5485bed604ee, (-29));
(0x133f1e67229384, (-30));
(0x1747485f81be2b, (-32));
(0x18b4cf0c9c4ee8, (-34));
(0x1692c0a5dc2c88, (-36));
(0x114998f0570f88, (-38));
(0x1557137871b484, (-41));
(0x13ef994663b361, (-44));
(0x19198c8b8307c8, (-48));
(0x10000000000000, (-52))];
[(0x1b395476e00000, (-20));
(0x16025e8b0f2b7e, (-20));
(0x10a91822ed4ffd, (-20));
(0x17991583f65b40, (-21));
(0x1f3b0fd479477e, (-22));
(0x1346a8c7bbe35b, (-22));
(0x1624bc71f5ba86, (-23));
(0x179a8aecfeebcc, (-24));
(0x1743177ad36184, (-25));
(0x1519f39206970a, (-26));
(0x11856ffa492469, (-27));
(0x1a73ad51ac5d10, (-29));
(0x11ff041941117d, (-30));
(0x15d41c99989a2b, (-32));
(0x17449a0d6aad89, (-34));
(0x15622964047636, (-36));
(0x107f684d46a823, (-38));
(0x148cab4e005b96, (-41));
(0x13677a6d823a44, (-44));
(0x18bd171a07e38a, (-48));
(0x10000000000000, (-52))];
[(0x117132ca800000, (-19));
(0x1f8ad0a7214734, (-20));
(0x1ac6818ffdd68e, (-20));
(0x1555cd1b56e56a, (-20));
(0x1fe5e266264cad, (-21));
(0x16596b4bc69c98, (-21));
(0x1d501715500e85, (-22));
(0x11f58b1d60df3d, (-22));
(0x1482c3bcc5504b, (-23));
(0x15c4d505ad8512, (-24));
(0x156476f2c6c832, (-25));
(0x1360b33aaaa455, (-26));
(0x10170ce25c9f54, (-27));
(0x18536b330b0b5b, (-29));
(0x1098e502aef769, (-30));
(0x143815b98ca98e, (-32));
(0x15adabc1ebafa3, (-34));
(0x1411ff3450e656, (-36));
(0x1f3fd9adfcfc1b, (-39));
(0x13abff97e45794, (-41));
(0x12cf55e37b0f35, (-44));
(0x1854bfb363dc39, (-48));
(0x10000000000000, (-52))];
[(0x1202cd7da00000, (-19));
(0x121b01ad777b3b, (-19));
(0x111d71d830ffd0, (-19));
(0x1e70d0568ef8ec, (-20));
(0x1977ef91c5d89a, (-20));
(0x140a7808360392, (-20));
(0x1da4b905cbb88c, (-21));
(0x14955812c63c8f, (-21));
(0x1acc4d83a4b7b9, (-22));
(0x1052ad1cc737d0, (-22));
(0x128fc4f778c284, (-23));
(0x13a4ccd0057a3e, (-24));
(0x1346cba5bba493, (-25));
(0x11760b63931753, (-26));
(0x1d09e115edd8b4, (-28));
(0x16039bfba7a67e, (-29));
(0x1e2b95513f5149, (-31));
(0x127c05476f8ea7, (-32));
(0x13f72a9ba8a90c, (-34));
(0x12a6d85fb1e154, (-36));
(0x1d5a8d06c900db, (-39));
(0x12b630a2399490, (-41));
(0x12272ab892ba63, (-44));
(0x17dfea8e092211, (-48));
(0x10000000000000, (-52))];
[(0x1e422606400000, (-20));
(0x10d58f27f6aa88, (-19));
(0x11a0b07536dce9, (-19));
(0x11634a0f32133c, (-19));
(0x102a73c4aba0a9, (-19));
(0x1c56b700abacdf, (-20));
(0x176a1779e3c22a, (-20));
(0x123a64e147843d, (-20));
(0x1ab861daaa3833, (-21));
(0x126ac59cd0abcd, (-21));
(0x17d69a28f49dd9, (-22));
(0x1cea31789976dc, (-23));
(0x1064a62bb266af, (-23));
(0x1152fc1a2c7148, (-24));
(0x1100149f17d2c8, (-25));
(0x1ed7ac3c5f6db8, (-27));
(0x19b843755be237, (-28));
(0x13952c2cd7b3f5, (-29));
(0x1afeb6f9e63f24, (-31));
(0x10a962c04aacf0, (-32));
(0x1228d66e485b31, (-34));
(0x1125bee493731c, (-36));
(0x1b53aa895ba090, (-39));
(0x11ac87593197d7, (-41));
(0x116ef7b61ca8ff, (-44));
(0x175ddc4efa914a, (-48));
(0x10000000000000, (-52))];
[(0x14d009e6800000, (-20));
(0x198e32dba42225, (-20));
(0x1d877787f51913, (-20));
(0x101434b8a2ef13, (-19));
(0x108560243b9d35, (-19));
(0x100718d337888b, (-19));
(0x1d5fadfc356721, (-20));
(0x196cdf57deed53, (-20));
(0x14c8820166b212, (-20));
(0x1008dc64af716c, (-20));
(0x1754f6a30a288a, (-21));
(0x1ff9ed09f634e6, (-22));
(0x149adfd022c093, (-22));
(0x18ebe36362c6ba, (-23));
(0x1c37cd09b20c00, (-24));
(0x1dd20de6835272, (-25));
(0x1d4e0b1ca33404, (-26));
(0x1aa8bdc6c8f369, (-27));
(0x1653e56a566402, (-28));
(0x111975a2d5179e, (-29));
(0x17bf1c29862816, (-31));
(0x1d9421106f5858, (-33));
(0x104ae66e1f5e6d, (-34));
(0x1f284960fa78e1, (-37));
(0x1930720f81dea3, (-39));
(0x109078bf7cfa8d, (-41));
(0x10a6bb44ce37bf, (-44));
(0x16cdb2bbb212eb, (-48));
(0x10000000000000, (-52))];
[(0x178a320a000000, (-21));
(0x1fd674c934bef4, (-21));
(0x143e9b4d7bd506, (-20));
(0x184243339215cb, (-20));
(0x1b6f3868d1fcd9, (-20));
(0x1d50f78f9a2e11, (-20));
(0x1da041fed34254, (-20));
(0x1c53f001227bec, (-20));
(0x19a271bdf2cbf7, (-20));
(0x15f3bdd6c72ee6, (-20));
(0x11c882cf869337, (-20));
(0x1b3cfc77bd0b32, (-21));
(0x13b3af14cdda01, (-21));
(0x1ae27e0fe3078d, (-22));
(0x1146462253002a, (-22));
(0x14dd0e213d1aeb, (-23));
(0x179f8ddbcb36ed, (-24));
(0x19002134d85e8b, (-25));
(0x18a380e92bce21, (-26));
(0x1682f0fcf96fec, (-27));
(0x12f6d6638e81ec, (-28));
(0x1d432d44c806d2, (-30));
(0x1480af98f97061, (-31));
(0x19d03796e0090a, (-33));
(0x1ccbc65c2552eb, (-35));
(0x1befac0d4095cb, (-37));
(0x16f6a363614d56, (-39));
(0x1ec75475afa861, (-42));
(0x1f9ce68d3acf7a, (-45));
(0x162e5acd0c3ebd, (-48));
(0x10000000000000, (-52))];
[(0x15ed1c07400000, (-22));
(0x105253ea935e3c, (-21));
(0x16cf949c8d648c, (-21));
(0x1e0279f3f166cc, (-21));
(0x129f4e03a75e48, (-20));
(0x15d70d447f6328, (-20));
(0x183c5a1c3871fe, (-20));
(0x1978b29b69a5ba, (-20));
(0x195ec535e91057, (-20));
(0x17f4ccbab020f0, (-20));
(0x157288ea5c09fd, (-20));
(0x1233a4bf2c7d38, (-20));
(0x1d45eed00ea2cf, (-21));
(0x1649c8708dad13, (-21));
(0x100d4408cfd912, (-21));
(0x15d75d000cfac0, (-22));
(0x1c071a13d28f5c, (-23));
(0x10ece8863d1cc0, (-23));
(0x13310e636ea862, (-24));
(0x145e68dc8fc7c6, (-25));
(0x14293d1ca328ec, (-26));
(0x1287379260c965, (-27));
(0x1f72d64e358867, (-29));
(0x187b9175f2daf6, (-30));
(0x1156b1f2d6fb2a, (-31));
(0x161af0676a1980, (-33));
(0x1904f938cac341, (-35));
(0x18add3b3fe2c19, (-37));
(0x14ac7e37623c5a, (-39));
(0x1c4fedea80b939, (-42));
(0x1dcc39b92b8fda, (-45));
(0x157e82ecdabe8c, (-48));
(0x10000000000000, (-52))];
[(0x10ce6225800000, (-23));
(0x1b8e4c44665338, (-23));
(0x15273a63b26cfa, (-22));
(0x1e84650f4c2de3, (-22));
(0x14be3d9e3c1536, (-21));
(0x1aa1b83c530370, (-21));
(0x102ca94f68d52f, (-20));
(0x129d0b332d5202, (-20));
(0x14509e2df38462, (-20));
(0x150b23113dfbbc, (-20));
(0x14b2da0bbe7d33, (-20));
(0x13562e3ab7068e, (-20));
(0x112804f2261b9f, (-20));
(0x1ce7e183eb5fc9, (-21));
(0x171be1b6b1c42e, (-21));
(0x1184d17e9d25f3, (-21));
(0x19296339b0ebc4, (-22));
(0x11180fa762c2a2, (-22));
(0x15ef9194c19f97, (-23));
(0x1a87f415c1b12a, (-24));
(0x1e2b732f617826, (-25));
(0x10145fbe70ec68, (-25));
(0x10023a0e55b8a3, (-26));
(0x1da471033197a7, (-28));
(0x19625a5ff3556e, (-29));
(0x13f97c50884a2a, (-30));
(0x1ca624220c5d20, (-32));
(0x128770fc5fb3aa, (-33));
(0x1552b7fb7af230, (-35));
(0x156f5fa23a76d3, (-37));
(0x1258c218c5bc74, (-39));
(0x19beed563d3504, (-42));
(0x1bdb681680d6a1, (-45));
(0x14bc876ba7f6ec, (-48));
(0x10000000000000, (-52))];
[(0x1520b5e6000000, (-25));
(0x131c5cde04d7a5, (-24));
(0x1020c9753c52d1, (-23));
(0x198302c3face68, (-23));
(0x12fa458b0a9c70, (-22));
(0x1aa193e9742cb1, (-22));
(0x11aa5d15d7fcc9, (-21));
(0x1632a107b7e24f, (-21));
(0x1a751574ae6369, (-21));
(0x1df1ffcbffcfb2, (-21));
(0x101b2e0144aac3, (-20));
(0x1079d52de052a7, (-20));
(0x100879109ff949, (-20));
(0x1db001cd3d6ab6, (-21));
(0x1a2571b2f5ec32, (-21));
(0x15e5ee6fe93f47, (-21));
(0x116e5680e46557, (-21));
(0x1a5a6bb8124e7e, (-22));
(0x12e5eae9bc6a4e, (-22));
(0x19ad6f85672ba9, (-23));
(0x107fb1568d89be, (-23));
(0x14032838478e87, (-24));
(0x16db0ec7de8c68, (-25));
(0x18815c394473b2, (-26));
(0x189400d5cea3a3, (-27));
(0x16f5fb41fee124, (-28));
(0x13dfda9b8690d7, (-29));
(0x1fac32b77770cf, (-31));
(0x170b94a82aaf11, (-32));
(0x1e4f14aaa88c38, (-34));
(0x11c5e3ca270d4f, (-35));
(0x124137241af042, (-37));
(0x1002ae587f0cc3, (-39));
(0x17190ccb1fa7c3, (-42));
(0x19ca6649d0180e, (-45));
(0x13e655eefe1367, (-48));
(0x10000000000000, (-52))];
[(0x15a38120000000, (-27));
(0x15ab315c5586e8, (-26));
(0x142500cee05e25, (-25));
(0x117c784f6086b8, (-24));
(0x1c793f822df046, (-24));
(0x15d29e9e75a166, (-23));
(0x1f94a7187dd480, (-23));
(0x159fdbf03489b2, (-22));
(0x1c1405340ce49c, (-22));
(0x114f6321ba4cbf, (-21));
(0x144ab7d8aeee29, (-21));
(0x16a2f361197d51, (-21));
(0x180bfb1046d41c, (-21));
(0x185626deaa88ee, (-21));
(0x177855473df8ae, (-21));
(0x1591b403ba8d11, (-21));
(0x12e2c6a10f2784, (-21));
(0x1f7f83df27b2ea, (-22));
(0x1900377a841820, (-22));
(0x12df3657043a1c, (-22));
(0x1b110271ace941, (-23));
(0x126a0e142ed6df, (-23));
(0x17bb512577ad60, (-24));
(0x1ce91152b6b9f9, (-25));
(0x109b05de3662f9, (-25));
(0x11efa129c0c38c, (-26));
(0x1226f3cef95766, (-27));
(0x1123f72b1b4ccb, (-28));
(0x1e0c1cb44c194c, (-30));
(0x184ab43e3a639b, (-31));
(0x11f891a5b7fb63, (-32));
(0x18164ac68ad957, (-34));
(0x1cdd00982a6694, (-36));
(0x1e60b35343fdb1, (-38));
(0x1b6403c2aa04e4, (-40));
(0x1463a7b8a201d9, (-42));
(0x179923933d8a49, (-45));
(0x12f9422c23c47d, (-48));
(0x10000000000000, (-52))];
[(0x11dda460000000, (-29));
(0x13e9950996ed50, (-28));
(0x1476fd86285166, (-27));
(0x138a1d3dc9c40b, (-26));
(0x116ea1def70d0a, (-25));
(0x1d325605623b2e, (-25));
(0x1708f5878eaf59, (-24));
(0x112c2dd17bec2d, (-23));
(0x1840970cb39571, (-23));
(0x1040c99b248a5c, (-22));
(0x14b53a0add7012, (-22));
(0x191cae833cbc84, (-22));
(0x1d039e9563d7bb, (-22));
(0x1ff69a10dd8be2, (-22));
(0x10cbd961611809, (-21));
(0x10d8a0986377bb, (-21));
(0x102079d3473f0c, (-21));
(0x1d78152f50989f, (-22));
(0x19b1070c5960ce, (-22));
(0x155cf1297e0233, (-22));
(0x10eea67582c7b6, (-22));
(0x199008806b04d1, (-23));
(0x125b7ba0ac63ce, (-23));
(0x190ccdc9613617, (-24));
(0x10363b49f75035, (-24));
(0x13dd75671c5de7, (-25));
(0x16fd46556aed32, (-26));
(0x190e5a2c70e314, (-27));
(0x19a19a2684c796, (-28));
(0x1882177906462c, (-29));
(0x15cb886239dcc7, (-30));
(0x11ea5900c03900, (-31));
(0x1b03a27d3c7a81, (-33));
(0x127f63b6c5cd4c, (-34));
(0x16b67ef1eed941, (-36));
(0x18934e24def281, (-38));
(0x16ddf5cf8994b8, (-40));
(0x11a4d93498fe3c, (-42));
(0x1547863283db0f, (-45));
(0x11f1c1799ca8fe, (-48));
(0x10000000000000, (-52))];
[(0x1767f300000000, (-32));
(0x1d451f806084f9, (-31));
(0x10b825e85e4e2b, (-29));
(0x119fac164cdea7, (-28));
(0x11450a893f9cb8, (-27));
(0x1fa5a88be4253e, (-27));
(0x1b3d148f7e06bd, (-26));
(0x161aac5d808970, (-25));
(0x10f69c98407d67, (-24));
(0x18aec9042b474c, (-24));
(0x110ef8110e29fb, (-23));
(0x166f66fab5a23d, (-23));
(0x1c1d0fc2b57349, (-23));
(0x10cd112327c17b, (-22));
(0x132b7926e1d952, (-22));
(0x14e4a5d8e15cb2, (-22));
(0x15c2df133975c7, (-22));
(0x15aa4fdc16f817, (-22));
(0x149e9cb849ca49, (-22));
(0x12c20bf39f8d4d, (-22));
(0x104e81cafee3e4, (-22));
(0x1b147db22f636a, (-23));
(0x1576a67667909c, (-23));
(0x103990aed70641, (-23));
(0x175ebd00bc6adc, (-24));
(0x1003a942f02854, (-24));
(0x14d975f43bfd0a, (-25));
(0x19bcb460cb691e, (-26));
(0x1e0df30985801a, (-27));
(0x108e005eb2cf29, (-27));
(0x1125ff1a6d2d8c, (-28));
(0x10a2ec13ce54b6, (-29));
(0x1e15c99483e264, (-31));
(0x1933d8f76d0088, (-32));
(0x136a0b65add882, (-33));
(0x1b3e6d87373362, (-35));
(0x11320a7619e53b, (-36));
(0x13333c4497756a, (-38));
(0x1284ac8b711a3f, (-40));
(0x1dc74a6699e258, (-43));
(0x12d5646fbd87f8, (-45));
(0x10caf8960e710d, (-48));
(0x10000000000000, (-52))];
[(0x17c0a000000000, (-35));
(0x10dd877ab1b462, (-33));
(0x1597c299453af2, (-32));
(0x19450cf59f48a5, (-31));
(0x1b4d73d9bf862f, (-30));
(0x1b70aa033e4a5f, (-29));
(0x19cdced916e37e, (-28));
(0x16cf452144e603, (-27));
(0x130635e660030f, (-26));
(0x1e089f7c230f70, (-26));
(0x167e3f3e166157, (-25));
(0x10042b55756c7e, (-24));
(0x15b9067bf2ffff, (-24));
(0x1c1950e6c33812, (-24));
(0x115a1f724414dd, (-23));
(0x147b30873aadfa, (-23));
(0x171ea2aba88e47, (-23));
(0x18f8db5f214149, (-23));
(0x19d17807c6eb4f, (-23));
(0x198e129a73a92f, (-23));
(0x18376a65b44ca2, (-23));
(0x15f794cd08c45d, (-23));
(0x1311b68f67a9ea, (-23));
(0x1faaedd9895b43, (-24));
(0x1922acecd88c75, (-24));
(0x130e1d6a09bcb3, (-24));
(0x1b90da6480af62, (-25));
(0x12fff9c5f56c0c, (-25));
(0x18eb7c5d54dc90, (-26));
(0x1f0a46d80e756d, (-27));
(0x1251a192e88823, (-27));
(0x146f80a7d3cbb0, (-28));
(0x157a3eb1014afd, (-29));
(0x152f6f7312fa24, (-30));
(0x13859460e781c2, (-31));
(0x10b58883892095, (-32));
(0x1a60f5f1ed0649, (-34));
(0x130726d5f545db, (-35));
(0x18c98aa926cc1f, (-37));
(0x1cb0387840e44e, (-39));
(0x1cd5382b5953ed, (-41));
(0x1850640717e815, (-43));
(0x104275f7af69bc, (-45));
(0x1efbdeb14f4ed9, (-49));
(0x10000000000000, (-52))];
[(0x11fe0000000000, (-38));
(0x1d8f0000000000, (-37));
(0x15770984e22b66, (-35));
(0x1c1ef1861ea01d, (-34));
(0x10d8b34e6a306e, (-32));
(0x12a548dfa20439, (-31));
(0x133543cf1200dc, (-30));
(0x1286a1a26c548f, (-29));
(0x10ce9eba32c46e, (-28));
(0x1ccb2125530b8c, (-28));
(0x175c0a441b44e5, (-27));
(0x11fe98fe784ddf, (-26));
(0x1a613850852b2a, (-26));
(0x126e721b97e0f7, (-25));
(0x189626c9ead110, (-25));
(0x1f587adeee994e, (-25));
(0x131da4c27b08c7, (-24));
(0x16528b67f23119, (-24));
(0x18f8db5f214149, (-24));
(0x1ac64396498bba, (-24));
(0x1b854f1c7c8ed0, (-24));
(0x1b1f5871e8a7c0, (-24));
(0x19a0d8448a3a6d, (-24));
(0x1736f4820ee51d, (-24));
(0x1426f47328dcfc, (-24));
(0x10c1c89de5b2f8, (-24));
(0x1aad5c6140d4fa, (-25));
(0x144fc957873ddc, (-25));
(0x1d8e2f33ef8ba1, (-26));
(0x1485b1b645e2d0, (-26));
(0x1b28fdfd0ca6c0, (-27));
(0x1118fd33c7f687, (-27));
(0x146f80a7d3cbb0, (-28));
(0x17212fd250295f, (-29));
(0x18b7575b9623d5, (-30));
(0x18d88e4cc98ddf, (-31));
(0x17648beb599404, (-32));
(0x14844d8346931c, (-33));
(0x10a641fb369d1f, (-34));
(0x18c98aa926cc1f, (-36));
(0x10bc20f0d0852d, (-37));
(0x142eda84be878c, (-39));
(0x1546578634eb13, (-41));
(0x12f8344ba1fb5b, (-43));
(0x1b1c62db2564fe, (-46));
(0x1c000000000000, (-49));
(0x10000000000000, (-52))];
[(0x13240000000000, (-42));
(0x12c0fff92cbcc1, (-40));
(0x1f7ad23dafaa8d, (-39));
(0x175e3d1f9ce28a, (-37));
(0x1f4f55e4b5c6bf, (-36));
(0x133172f4212ee2, (-34));
(0x15bfac1b893e23, (-33));
(0x16f381dbc3cc0f, (-32));
(0x16b08372750740, (-31));
(0x151cbae58ee9cb, (-30));
(0x128f72eef7a2ca, (-29));
(0x1eeddcf9a240d3, (-29));
(0x187cc90d759ff3, (-28));
(0x127644fa8d6627, (-27));
(0x1a8eb25c537f61, (-27));
(0x123ff51b6cfc77, (-26));
(0x17fe76825298c4, (-26));
(0x1e3580ca4e49b8, (-26));
(0x1239e7f58d7dc0, (-25));
(0x1517bcaf7fa202, (-25));
(0x176c3b5f796f1a, (-25));
(0x18f7a257878bbf, (-25));
(0x198d67bc098d8b, (-25));
(0x191c49ef9eaa3d, (-25));
(0x17b180cf0e531d, (-25));
(0x15764391b9ef97, (-25));
(0x12a8439d9d5308, (-25));
(0x1f1deda350a7dc, (-26));
(0x18e0696e3a59c0, (-26));
(0x130d2e8dffab1a, (-26));
(0x1bed5f4ad4ac0a, (-27));
(0x1391336bc429ee, (-27));
(0x1a2cde5f9fec79, (-28));
(0x10af810321d0e2, (-28));
(0x143bf59bad54dc, (-29));
(0x17490f81337e88, (-30));
(0x195bb7136681f3, (-31));
(0x1a0bac9c52bd54, (-32));
(0x1920bb1c23f016, (-33));
(0x16a832b7ea8a82, (-34));
(0x12f94b222a8f6e, (-35));
(0x1d47a9eb49bc09, (-37));
(0x149965da374cb7, (-38));
(0x1a0e6119c6a60d, (-40));
(0x1d0a839c7c1519, (-42));
(0x1bab80805ed3e2, (-44));
(0x156edb65e9fc4a, (-46));
(0x187eb1990b697a, (-49));
(0x10000000000000, (-52))];
[(0x19800000000000, (-47));
(0x1f8f9a9c832c7f, (-45));
(0x1f91497a8cbbaf, (-43));
(0x1b0ed14478a0df, (-41));
(0x1485b56cb631cf, (-39));
(0x1c1ba32c39e692, (-38));
(0x119f37eb905799, (-36));
(0x146ec4148dc469, (-35));
(0x161366c16c9e16, (-34));
(0x165b3af3fdf449, (-33));
(0x15528282273f75, (-32));
(0x1339c5c4e86ad2, (-31));
(0x1070c3588d7f53, (-30));
(0x1abc801a5633e6, (-30));
(0x14b7aa24e90f9e, (-29));
(0x1ea740fbbdb188, (-29));
(0x15af1cd52b26c9, (-28));
(0x1d5f7ebf835c41, (-28));
(0x131188d7855970, (-27));
(0x17c06e6176d6c0, (-27));
(0x1c674a1ac36cde, (-27));
(0x10507b204d72a6, (-26));
(0x1202e1a84ff012, (-26));
(0x131db347d7b1c2, (-26));
(0x13820a87149c30, (-26));
(0x1324afb34189a6, (-26));
(0x12101cb5f6a395, (-26));
(0x106299ab4b2aa7, (-26));
(0x1c91cfded712df, (-27));
(0x17ed816293b938, (-27));
(0x133db65431cde0, (-27));
(0x1db089f9d48c70, (-28));
(0x15f529363c7681, (-28));
(0x1f19d17f7c0754, (-29));
(0x15108268ad9364, (-29));
(0x1b3f56351a64eb, (-30));
(0x10cc44c3fb3d18, (-30));
(0x13b350eafc263e, (-31));
(0x15ebaf20bca9c4, (-32));
(0x17122085e3b363, (-33));
(0x16e1e9b7625097, (-34));
(0x154ab20cf1dc77, (-35));
(0x127b67e36ccbcb, (-36));
(0x1db863069fa953, (-38));
(0x15edf5f1f2341f, (-39));
(0x1d547dbed83e82, (-41));
(0x11773dcee75085, (-42));
(0x1209e0d8506b3f, (-44));
(0x1eec5ce089dc6d, (-47));
(0x1432f24fb01c7a, (-49));
(0x10000000000000, (-52))];
[(0x10000000000000, (-52));
(0x1cd82b446159f3, (-50));
(0x12350738f34edf, (-47));
(0x1295245a0e469d, (-45));
(0x10427fcecc7dc9, (-43));
(0x1930841fadb930, (-42));
(0x11a00aaaa7705f, (-40));
(0x169743875fecca, (-39));
(0x1aca1b717fb7ab, (-38));
(0x1d9dec3bab5742, (-37));
(0x1eb51ad80f9f30, (-36));
(0x1e005d9aedf7c1, (-35));
(0x1bba48031f33b0, (-34));
(0x18519ac2d4cc8c, (-33));
(0x144b68f0fbfdd7, (-32));
(0x10269facd5a36b, (-31));
(0x188f7bcbb2dd97, (-31));
(0x11ded0f793a18b, (-30));
(0x18eb46c99c7a79, (-30));
(0x10aad155e37d97, (-29));
(0x1568d39baf5dab, (-29));
(0x1a6dade22e956c, (-29));
(0x1f5f356b774872, (-29));
(0x11ea24b1752f1d, (-28));
(0x13b14838dfd324, (-28));
(0x14d73106bd39b6, (-28));
(0x153cd2c630c28e, (-28));
(0x14d73106bd39b6, (-28));
(0x13b14838dfd324, (-28));
(0x11ea24b1752f1d, (-28));
(0x1f5f356b774872, (-29));
(0x1a6dade22e956c, (-29));
(0x1568d39baf5dab, (-29));
(0x10aad155e37d97, (-29));
(0x18eb46c99c7a79, (-30));
(0x11ded0f793a18b, (-30));
(0x188f7bcbb2dd97, (-31));
(0x10269facd5a36b, (-31));
(0x144b68f0fbfdd7, (-32));
(0x18519ac2d4cc8c, (-33));
(0x1bba48031f33b0, (-34));
(0x1e005d9aedf7c1, (-35));
(0x1eb51ad80f9f30, (-36));
(0x1d9dec3bab5742, (-37));
(0x1aca1b717fb7ab, (-38));
(0x169743875fecca, (-39));
(0x11a00aaaa7705f, (-40));
(0x1930841fadb930, (-42));
(0x10427fcecc7dc9, (-43));
(0x1295245a0e469d, (-45));
(0x12350738f34edf, (-47));
(0x1cd82b446159f3, (-50));
(0x10000000000000, (-52))]];
   [[(0x1b000000000000, (-48));
(0x10000000000000, (-52))];
[(0x19980000000000, (-41));
(0x16c3ffa60a3026, (-44));
(0x1afb41f432002d, (-48));
(0x10000000000000, (-52))];
[(0x1cfe3000000000, (-36));
(0x15890ffe1e8f65, (-38));
(0x198a7c6ea503af, (-41));
(0x16b3fcd420e6d5, (-44));
(0x1aed02cdd31070, (-48));
(0x10000000000000, (-52))];
[(0x1f105800000000, (-32));
(0x10352102bb659c, (-33));
(0x1ce48caa1143a3, (-36));
(0x156aafeefb0931, (-38));
(0x1961ffebd430d2, (-41));
(0x1693f7244fc1d3, (-44));
(0x1ad5336963eefb, (-48));
(0x10000000000000, (-52))];
[(0x1339e4b0000000, (-28));
(0x19ebbfab78512b, (-30));
(0x1ee997943793d3, (-32));
(0x1012a5e6e0a7d4, (-33));
(0x1c97f3bf771479, (-36));
(0x152e2fd032480e, (-38));
(0x191eb524114750, (-41));
(0x1663ee7e18f454, (-44));
(0x1ab3ba31acd8eb, (-48));
(0x10000000000000, (-52))];
[(0x1ec30780000000, (-26));
(0x1981a11cee434d, (-27));
(0x131abb16cc1419, (-28));
(0x19a19a9bc4f6e9, (-30));
(0x1e7623a7dad943, (-32));
(0x1f9c82f6bf1708, (-34));
(0x1c1957f7c64d5c, (-36));
(0x14d40fa0b8a60f, (-38));
(0x18c0e38a22f1af, (-41));
(0x1623e2bb73f8e8, (-44));
(0x1a887293fd6f34, (-48));
(0x10000000000000, (-52))];
[(0x1114e9b4000000, (-23));
(0x10def1a04683ae, (-24));
(0x1e85436eaddc28, (-26));
(0x192565f7bfe07a, (-27));
(0x12be2745b98b1c, (-28));
(0x190f29779fb5c0, (-30));
(0x1db860064d7280, (-32));
(0x1ed22ab133df0a, (-34));
(0x1b6a4bff96a835, (-36));
(0x145d0f5ee731b0, (-38));
(0x1848efd678df30, (-41));
(0x15d3d3a72190b1, (-44));
(0x1a532c32c23dd4, (-48));
(0x10000000000000, (-52))];
[(0x1ba7f448000000, (-22));
(0x1fd11d929aad38, (-23));
(0x10ebb3f43fa768, (-23));
(0x1094afe7f7336f, (-24));
(0x1dce4f3f0aa12e, (-26));
(0x187006d2591c41, (-27));
(0x1226dc24bc88d5, (-28));
(0x18381130f5e607, (-30));
(0x1cb43a4cfd8267, (-32));
(0x1dc99dc621b299, (-34));
(0x1a8cffaba223dc, (-36));
(0x13ca2f085f4da3, (-38));
(0x17b75cbebb9c8c, (-41));
(0x1573c0fa3b33db, (-44));
(0x1a13a9cb996650, (-48));
(0x10000000000000, (-52))];
[(0x10e75c9a200000, (-20));
(0x164977e02fc7f5, (-21));
(0x1b596e590bf0a8, (-22));
(0x1f2adf05b32cdb, (-23));
(0x107202a3c3b376, (-23));
(0x100351babfb1db, (-24));
(0x1ca515d0953c07, (-26));
(0x1767911d18d74a, (-27));
(0x11593ead67f317, (-28));
(0x1721a8e735441f, (-30));
(0x1b6f14ff6912db, (-32));
(0x1c8742969ab193, (-34));
(0x19843c03547776, (-36));
(0x131cae99e009cf, (-38));
(0x170ccbeb1ebf60, (-41));
(0x1503aa58c681f7, (-44));
(0x19c99fc141b430, (-48));
(0x10000000000000, (-52))];
[(0x10039b18c00000, (-19));
(0x17e7d04aed0bee, (-20));
(0x10afb105bd324f, (-20));
(0x15c19ab2e4196a, (-21));
(0x1a724bf4a4ea8e, (-22));
(0x1de6f4694837ae, (-23));
(0x1f5b0c71fba932, (-24));
(0x1e61e952fffd59, (-25));
(0x1b14bebda74cdf, (-26));
(0x1614c824ac243a, (-27));
(0x105b3eebc1e1f2, (-28));
(0x15d2d3d989a249, (-30));
(0x19efaa85e85c42, (-32));
(0x1b107b1b7cfb07, (-34));
(0x18535e18880968, (-36));
(0x12560e0f0806d2, (-38));
(0x1649ff31430385, (-41));
(0x14838f4cf9a2bc, (-44));
(0x1974b2334f2346, (-48));
(0x10000000000000, (-52))];
[(0x17fba5d6700000, (-19));
(0x1414e12bfe60eb, (-19));
(0x1f8e1ce7d24ed3, (-20));
(0x173fdc2055e943, (-20));
(0x100c619e704765, (-20));
(0x14ba316b6769b6, (-21));
(0x18ff82750bad53, (-22));
(0x1c15e7d152e622, (-23));
(0x1d4ea7a4349eec, (-24));
(0x1c4cae87619365, (-25));
(0x192c23735940ea, (-26));
(0x1482c78d652b69, (-27));
(0x1e6845ffcdce32, (-29));
(0x1453cfd482527b, (-30));
(0x183de861802af5, (-32));
(0x196b90e511ee1d, (-34));
(0x16fe509e9130dd, (-36));
(0x11780d61fbca28, (-38));
(0x156fda1f375a52, (-41));
(0x13f36f40b4a115, (-44));
(0x19147284a41447, (-48));
(0x10000000000000, (-52))];
[(0x1cd148c9000000, (-19));
(0x1ae155383e4913, (-19));
(0x179449a217d0f4, (-19));
(0x1373aee8844abf, (-19));
(0x1e2c27409ef2ba, (-20));
(0x15fbf289b6302c, (-20));
(0x1e105e9cb68ed3, (-21));
(0x1343274026bbbe, (-21));
(0x17158a63b00df3, (-22));
(0x19cf1136028ef0, (-23));
(0x1ad6a61c42fd66, (-24));
(0x19dcb910cde349, (-25));
(0x16fd1647d374b3, (-26));
(0x12be8c65021690, (-27));
(0x1bd88b68c3ca47, (-29));
(0x12adf91b1ce181, (-30));
(0x1662c2f5d901da, (-32));
(0x179f9d1a8656b6, (-34));
(0x1589842e85d3d4, (-36));
(0x1084ac8ae3d117, (-38));
(0x147f63e4b3df08, (-41));
(0x1353497475459a, (-44));
(0x18a85c24f70659, (-48));
(0x10000000000000, (-52))];
[(0x1c18da2a600000, (-19));
(0x1d0ab22a2881d8, (-19));
(0x1c4466d34dabcd, (-19));
(0x19ec498b1dcadf, (-19));
(0x16675b0dbd83f0, (-19));
(0x123e8f0234b38b, (-19));
(0x1bfc4f5506fb3e, (-20));
(0x1432d7cadc90e0, (-20));
(0x1b67ce1d277216, (-21));
(0x1172a5be9f59c8, (-21));
(0x14cec9b3a0e6ca, (-22));
(0x172ef544b73437, (-23));
(0x180eff3ff1a0d8, (-24));
(0x172ae2d5477e71, (-25));
(0x149b84aedbbca3, (-26));
(0x10d6698ae189e8, (-27));
(0x1919954f2aae46, (-29));
(0x10eb850b314af5, (-30));
(0x14680262a51aa4, (-32));
(0x15b46c792b880f, (-34));
(0x13f9e621ac92a3, (-36));
(0x1efc56fe5c6f7e, (-39));
(0x1379c9ad594307, (-41));
(0x12a31cf2a8a566, (-44));
(0x182fd05f129838, (-48));
(0x10000000000000, (-52))];
[(0x1669e347000000, (-19));
(0x1992b0bd6b635e, (-19));
(0x1b7d7b0fcf8353, (-19));
(0x1bdf3031f4141d, (-19));
(0x1aabf7518b652c, (-19));
(0x18193d85d33cfe, (-19));
(0x148f1f926a8f99, (-19));
(0x108e76800135bf, (-19));
(0x19283c540ff090, (-20));
(0x1203c8e6827f86, (-20));
(0x1849a836d1c67c, (-21));
(0x1ec66cf0a2e015, (-22));
(0x12498edd89b6e4, (-22));
(0x14554d75c253aa, (-23));
(0x15161770a39922, (-24));
(0x1451bb2f0acb36, (-25));
(0x121c7faba12d5d, (-26));
(0x1db2da45416dbe, (-28));
(0x163e94d44a451a, (-29));
(0x1e2e69fa72e592, (-31));
(0x125808ffad8c26, (-32));
(0x13b25f53688458, (-34));
(0x1254d5e4dd1e36, (-36));
(0x1cce1460e687cc, (-39));
(0x12606185159a22, (-41));
(0x11e2e87d9e9710, (-44));
(0x17aa10d193c22c, (-48));
(0x10000000000000, (-52))];
[(0x1d6cbe8c800000, (-20));
(0x127b0d0b0012b8, (-19));
(0x15dddadf9cd64b, (-19));
(0x1868f4c3411858, (-19));
(0x19bd24fe88fd7a, (-19));
(0x19a828f072cb2d, (-19));
(0x183085434c6e41, (-19));
(0x15931eb103c5da, (-19));
(0x1233a4bf2c7d38, (-19));
(0x1d0a3823ec0b01, (-20));
(0x15e3c0eea0892f, (-20));
(0x1f26c3b4dfa42a, (-21));
(0x14e5a27801a0cc, (-21));
(0x1a63229319d0e7, (-22));
(0x1f4b9531dba861, (-23));
(0x1162e11bb2ebc4, (-23));
(0x120ae550e3b409, (-24));
(0x116c141b1399df, (-25));
(0x1f2a6e58719369, (-27));
(0x19ad7b223956e5, (-28));
(0x135af29e74e787, (-29));
(0x1a78063ed368da, (-31));
(0x103d942af2b52e, (-32));
(0x11a2458f33a690, (-34));
(0x10a0189fedc35a, (-36));
(0x1a8411158cf9d7, (-39));
(0x1134ade891e62d, (-41));
(0x1112aa755a548a, (-44));
(0x1716380ce70399, (-48));
(0x10000000000000, (-52))];
[(0x1fe485dc000000, (-21));
(0x1604fd5c966365, (-20));
(0x1c9cf42d86e587, (-20));
(0x118844de57060e, (-19));
(0x144be0de59285e, (-19));
(0x1639757040190e, (-19));
(0x170a31670eb4fd, (-19));
(0x16a0929418dcd1, (-19));
(0x150f082b60e03e, (-19));
(0x1292f150d62063, (-19));
(0x1f0b83c548bc38, (-20));
(0x189232a70dacb5, (-20));
(0x1267652d684682, (-20));
(0x1a102aaa4031c6, (-21));
(0x116c5d68c195ef, (-21));
(0x15f49cb3683b42, (-22));
(0x1a0577595f16d3, (-23));
(0x1ceeb5fe49467f, (-24));
(0x1e163185ecf088, (-25));
(0x1d27238c13b336, (-26));
(0x1a33ec02f2fb13, (-27));
(0x15b9ea3f98c8ea, (-28));
(0x108197f7a4585c, (-29));
(0x16c9969812b788, (-31));
(0x1c46f06ed97287, (-33));
(0x1f1a6d47a8724f, (-35));
(0x1dc39604e83719, (-37));
(0x18244ce42e8e05, (-39));
(0x1ff0c45fd55f25, (-42));
(0x103260b0b3a691, (-44));
(0x16732f8d0e2f76, (-48));
(0x10000000000000, (-52))];
[(0x1c920d3fc00000, (-22));
(0x15acf52264fc54, (-21));
(0x1ee57265f15300, (-21));
(0x14be3d9e3c1536, (-20));
(0x1a4bf5725f4433, (-20));
(0x1f87a28ccd4af6, (-20));
(0x11e6df5100c946, (-19));
(0x1345bd44c3bda2, (-19));
(0x13af3489534fa9, (-19));
(0x13154cc7975ea0, (-19));
(0x1190398c6b34d4, (-19));
(0x1eb0aed97f04ab, (-20));
(0x19726adb312937, (-20));
(0x14034dc7fb818e, (-20));
(0x1dd55ed441654a, (-21));
(0x150d4063958e43, (-21));
(0x1c169a2a81caa8, (-22));
(0x11af6a8c8a9c0b, (-22));
(0x14f982bb5dae8f, (-23));
(0x175e8f00676079, (-24));
(0x1862ca4ebf727b, (-25));
(0x17bea71421f6b7, (-26));
(0x157a5923c4a09f, (-27));
(0x11f3078cc3b300, (-28));
(0x1b887417a24be4, (-30));
(0x1337e435da4eff, (-31));
(0x1828b0dbba2529, (-33));
(0x1af8cb2cfdea97, (-35));
(0x1a40a1f472caef, (-37));
(0x15b5477bf84e81, (-39));
(0x1d5ad027a2c720, (-42));
(0x1e8410841c900f, (-45));
(0x15bfa1d602241b, (-48));
(0x10000000000000, (-52))];
[(0x1520b5e6000000, (-23));
(0x11a060b5045260, (-22));
(0x1b8e4c44665338, (-22));
(0x1440afa85144ce, (-21));
(0x1c125ba3fe1239, (-21));
(0x12630679328453, (-20));
(0x16ce58a8879ce5, (-20));
(0x1ad28293fe3175, (-20));
(0x1df1ffcbffcfb2, (-20));
(0x1fc3052107f342, (-20));
(0x1002ff22e31e86, (-19));
(0x1eb3779df5c584, (-20));
(0x1bfd5af8508217, (-20));
(0x184340d7824795, (-20));
(0x13fd7de6b50f83, (-20));
(0x1f4a244520df2a, (-21));
(0x173dc8abdb31c9, (-21));
(0x105dc2730f0118, (-21));
(0x15d258996956cb, (-22));
(0x1b7f7ce596903d, (-23));
(0x10570a4eaaa162, (-23));
(0x1244c7fc146c85, (-24));
(0x13281c7deb174c, (-25));
(0x12c598cc816630, (-26));
(0x111d304fbde882, (-27));
(0x1ce07afa4a89a1, (-29));
(0x16655ca364ace2, (-30));
(0x1fac32b77770cf, (-32));
(0x1434b871c5b2d0, (-33));
(0x16f1e1ea1c375d, (-35));
(0x16c4860cddb49b, (-37));
(0x133e00657199b8, (-39));
(0x1aabcd4f2576a2, (-42));
(0x1c833a3406f384, (-45));
(0x14f9e6bbc4ecb3, (-48));
(0x10000000000000, (-52))];
[(0x19b22956000000, (-25));
(0x179f1f49cd8889, (-24));
(0x14452263578578, (-23));
(0x104f70fea9234c, (-22));
(0x18b39fbfab69f8, (-22));
(0x11a77550b3f8d9, (-21));
(0x17df6c4a3a7888, (-21));
(0x1e98f6ab427d60, (-21));
(0x129d077fecdef3, (-20));
(0x1585d4a52d6718, (-20));
(0x17ac812776c085, (-20));
(0x18c9708ef728f3, (-20));
(0x18b6bfc4d07bfb, (-20));
(0x177855473df8ae, (-20));
(0x153abde60ca5bb, (-20));
(0x1249406ae4aa51, (-20));
(0x1dfc3cda0f9745, (-21));
(0x1762dac2d62bd5, (-21));
(0x1155c07826cb8a, (-21));
(0x1865b98ca860d5, (-22));
(0x1046ace19f5f36, (-22));
(0x148d60fb96fa16, (-23));
(0x18828f75fff213, (-24));
(0x1b8986251a4b01, (-25));
(0x1d0f4a44df2d33, (-26));
(0x1cb37a127e996d, (-27));
(0x1a6a4f1a5457da, (-28));
(0x168915873912f9, (-29));
(0x11b49edb9a01d9, (-30));
(0x196a2fde13f6a2, (-32));
(0x107dc5872a3b9b, (-33));
(0x13175d9aeb5cdb, (-35));
(0x135cb1857fa442, (-37));
(0x10c5f6ea689d32, (-39));
(0x17e89694bc58f2, (-42));
(0x1a6232dd9e99da, (-45));
(0x141fe68f0af33c, (-48));
(0x10000000000000, (-52))];
[(0x1985c640000000, (-27));
(0x19f1a1e83951d1, (-26));
(0x187e7b660449a7, (-25));
(0x159a451004c979, (-24));
(0x11e113cd7167d2, (-23));
(0x1bdfc5e5c7a20a, (-23));
(0x1486705ad408f4, (-22));
(0x1c9f56ba29030f, (-22));
(0x12ef2bb801616f, (-21));
(0x17cdf0d321735b, (-21));
(0x1c79709ac0b28a, (-21));
(0x10382a5ed9d174, (-20));
(0x119c64dead2de5, (-20));
(0x123c00e5777c57, (-20));
(0x1202647d76af36, (-20));
(0x10f80485db1411, (-20));
(0x1e80de1643d106, (-21));
(0x1a2571b2f5ec32, (-21));
(0x155cf1297e0233, (-21));
(0x10a08ac24864e8, (-21));
(0x18a1fcf9e68287, (-22));
(0x1158980dff7a20, (-22));
(0x17311a4aceff69, (-23));
(0x1d62ef029a34eb, (-24));
(0x119bc6fa6ed0bb, (-24));
(0x13e8cc249fdb70, (-25));
(0x152d1df9720012, (-26));
(0x151d262bf996e2, (-27));
(0x13a676f0c20f22, (-28));
(0x10fb8971c49743, (-29));
(0x1b15e7ea2dfffa, (-31));
(0x13c5b9f0535ad8, (-32));
(0x1a28da20eb9527, (-34));
(0x1ef3d27d27d065, (-36));
(0x1016a0467c5396, (-37));
(0x1caa53d4d1d0ad, (-40));
(0x1516aa9fe04d8b, (-42));
(0x1820e96efcc873, (-45));
(0x132eee75770416, (-48));
(0x10000000000000, (-52))];
[(0x147af4a0000000, (-29));
(0x172598c0cfec7d, (-28));
(0x1821dc9288d3dc, (-27));
(0x17621e36d7648e, (-26));
(0x152e29a0e747ce, (-25));
(0x120442541ecc9e, (-24));
(0x1ce4118d6ced2a, (-24));
(0x15e6499fd99097, (-23));
(0x1f76e6fc1f2ccb, (-23));
(0x1576fb6f65e7ce, (-22));
(0x1bdb3b04212ce0, (-22));
(0x1137483908b989, (-21));
(0x144a08235f62f2, (-21));
(0x16d10fbe3567b9, (-21));
(0x187fd874bd48be, (-21));
(0x1920b02d36e111, (-21));
(0x189f77aee68e7b, (-21));
(0x170daaf776fae4, (-21));
(0x149e9cb849ca49, (-21));
(0x119cfb9fb6dea9, (-21));
(0x1cb9046057ac7f, (-22));
(0x1657036760a29c, (-22));
(0x108f36f66ea9f4, (-22));
(0x175ebd00bc6adc, (-23));
(0x1f5aaf8a91afea, (-24));
(0x13f63ac821b253, (-24));
(0x18132b372f5bf4, (-25));
(0x1b6f952c273c83, (-26));
(0x1d75942f148493, (-27));
(0x1db3b26d239668, (-28));
(0x1c00d59212b22b, (-29));
(0x18907bac45f44a, (-30));
(0x13eca22187661a, (-31));
(0x1da7de4fedbe37, (-33));
(0x140d0a37715a4c, (-34));
(0x18516d074fac8e, (-36));
(0x19ff429debceef, (-38));
(0x17e82f0ee0be41, (-40));
(0x123c4b0551ee10, (-42));
(0x15bf43aa6c8e68, (-45));
(0x12236b5fbe7711, (-48));
(0x10000000000000, (-52))];
[(0x1a20b000000000, (-32));
(0x108cf2ab3836d9, (-30));
(0x13296687eb6f1f, (-29));
(0x147a16e34fa4a3, (-28));
(0x1459a15db2b40b, (-27));
(0x12eb020840880d, (-26));
(0x1086f3fe8bdf26, (-25));
(0x1b3d148f7e06bd, (-25));
(0x153cad6d8b258b, (-24));
(0x1f68f452fe128e, (-24));
(0x1613b17d131276, (-23));
(0x1d8bcfec649b0a, (-23));
(0x12d96c4f1b81e9, (-22));
(0x16f4604c0ba20c, (-22));
(0x1ab44865bfe124, (-22));
(0x1db29ff7484911, (-22));
(0x1f96653c2dd2e4, (-22));
(0x10125c76fbd4f4, (-21));
(0x1f4c5eb509ea9c, (-22));
(0x1d2915befb1308, (-22));
(0x19fde93c0d6def, (-22));
(0x162809c0555157, (-22));
(0x120da92174ecf1, (-22));
(0x1c1a2f975b19de, (-23));
(0x14dfb506ebc502, (-23));
(0x1d8fa1c18c9f78, (-24));
(0x13ed6177560ce2, (-24));
(0x19890716aa06f5, (-25));
(0x1f0a46d80e756d, (-26));
(0x11dae314bc5a79, (-26));
(0x13630a02aa7b59, (-27));
(0x13cd219e17b99a, (-28));
(0x12f2de383854ed, (-29));
(0x10e807e8ae7d7c, (-30));
(0x1bf5aea32255de, (-32));
(0x15446936b65091, (-33));
(0x1d7a5b139a1b42, (-35));
(0x1261fac945a708, (-36));
(0x144925ef007827, (-38));
(0x135778f64d0c1e, (-40));
(0x1ec14cfb09f31f, (-43));
(0x133d170d834376, (-45));
(0x10f876ccdf6cd9, (-48));
(0x10000000000000, (-52))];
[(0x19dd2000000000, (-35));
(0x1296d77ff1255d, (-33));
(0x18192f0899c99f, (-32));
(0x1c908a11c582e7, (-31));
(0x1f450aaf31cff8, (-30));
(0x1fda5c7e0a1c8c, (-29));
(0x1e5ee0e13fe2ec, (-28));
(0x1b3b0a8aedb626, (-27));
(0x170bc83fed5109, (-26));
(0x1277a305a9822d, (-25));
(0x1c180c5a0fb2a6, (-25));
(0x1453b49a058602, (-24));
(0x1c074bd58d7ddd, (-24));
(0x12709d17701ccc, (-23));
(0x172e2ed683e05f, (-23));
(0x1bdda66c9a67ad, (-23));
(0x100771e4e6071f, (-22));
(0x11a86eb6fa2e6d, (-22));
(0x12a25da9287555, (-22));
(0x12d797e5bdcd48, (-22));
(0x1241e1e99b1e30, (-22));
(0x10f397473168d8, (-22));
(0x1e282009ac69f5, (-23));
(0x19b06724af50c8, (-23));
(0x14f23ac55f1fb7, (-23));
(0x10561cc28a5820, (-23));
(0x185a5332bdbb2d, (-24));
(0x1154119d96ac54, (-24));
(0x1782dce1f9ad28, (-25));
(0x1e5dae7953ad66, (-26));
(0x12a1b698312f8c, (-26));
(0x15acd8adfcf9b2, (-27));
(0x17d76b6e77184d, (-28));
(0x18b7575b9623d5, (-29));
(0x180e94ec2ddd99, (-30));
(0x15e1c5b9e860be, (-31));
(0x127e5c9bb394ef, (-32));
(0x1cd6726bf370ce, (-34));
(0x148d71f75e89e3, (-35));
(0x1a75cd5d013539, (-37));
(0x1e4647c71dcb52, (-39));
(0x1e164a62b0bd85, (-41));
(0x1918278802049a, (-43));
(0x109a19e69f4bee, (-45));
(0x1f4e115049ec25, (-49));
(0x10000000000000, (-52))];
[(0x13240000000000, (-38));
(0x1fce55a762e836, (-37));
(0x175e3d1f9ce28a, (-35));
(0x1efb672a91e8f1, (-34));
(0x12c9ff155278f1, (-32));
(0x150ee02204bc89, (-31));
(0x15f95eb337e875, (-30));
(0x1579ab54ffb1b7, (-29));
(0x13bfa97ba793da, (-28));
(0x112757da841df5, (-27));
(0x1c3bfcb4065ab2, (-27));
(0x16129b54e39a56, (-26));
(0x106d3aa3c60263, (-25));
(0x17510f3ecfbaa9, (-25));
(0x1f9c115310ec24, (-25));
(0x147d2052ee58e2, (-24));
(0x196cb674b1cc96, (-24));
(0x1e3987a7d68a07, (-24));
(0x1138dde954ba44, (-23));
(0x12d2cc163d4479, (-23));
(0x13bd07ccdb6c4f, (-23));
(0x13dc838a5ea103, (-23));
(0x132dafca2df208, (-23));
(0x11c5209b4abe55, (-23));
(0x1f975669686ed1, (-24));
(0x1aedf1858a984e, (-24));
(0x1600c30be87b73, (-24));
(0x1138555edbad0e, (-24));
(0x19cbbc4657f2c5, (-25));
(0x1278dd8075b744, (-25));
(0x1942d9bad21645, (-26));
(0x1077dee8ad58e1, (-26));
(0x146f80a7d3cbb0, (-27));
(0x181562886e6ac6, (-28));
(0x1ae33d6669c71b, (-29));
(0x1c59f54abb1b8d, (-30));
(0x1c21e94c835145, (-31));
(0x1a27660a7710a5, (-32));
(0x16a832b7ea8a82, (-33));
(0x122a81242467e4, (-34));
(0x1aba92d2cc3204, (-36));
(0x11d6e581cd0cd2, (-37));
(0x1546578634eb13, (-39));
(0x162e343580b9f2, (-41));
(0x1390cad22e3397, (-43));
(0x1bab80805ed3e2, (-46));
(0x1c48c6001f0abf, (-49));
(0x10000000000000, (-52))];
[(0x13ec0000000000, (-42));
(0x13bacdec97f54d, (-40));
(0x10bdbfe895b0b3, (-38));
(0x192273e8fe1b5e, (-37));
(0x110844afc0a68b, (-35));
(0x1520c2ca3fd4a0, (-34));
(0x183aece3e67873, (-33));
(0x19e2db04562642, (-32));
(0x19ea61bc40240f, (-31));
(0x186d823283e286, (-30));
(0x15c31177cd30e8, (-29));
(0x12618a481c1964, (-28));
(0x1d841fb49f9f9b, (-28));
(0x169388d72f897e, (-27));
(0x107b0a147641ca, (-26));
(0x16ffd8152f6385, (-26));
(0x1eb813835276f2, (-26));
(0x13a7c547f85040, (-25));
(0x181eb501106841, (-25));
(0x1c674a1ac36cde, (-25));
(0x100eb49b771088, (-24));
(0x1170777f953768, (-24));
(0x1232a9f5bc3cfc, (-24));
(0x123f7f6a40f56b, (-24));
(0x1195915dafa8b1, (-24));
(0x10481e4d43d516, (-24));
(0x1cf7136393ceb2, (-25));
(0x18bdf26da15939, (-25));
(0x1449265e43a3e8, (-25));
(0x1fe85ea0476e79, (-26));
(0x180d23e93e4159, (-26));
(0x115beafed390da, (-26));
(0x17f6fe39a1c04f, (-27));
(0x1f98c39d045d16, (-28));
(0x13dc1b4bfea8d4, (-28));
(0x17c17f89e41e41, (-29));
(0x1af9d84f69f638, (-30));
(0x1cff8f6e161612, (-31));
(0x1d68dd402cf56d, (-32));
(0x1c0672e7b493e6, (-33));
(0x18f781ccc11256, (-34));
(0x14a9df5d1de137, (-35));
(0x1f85e9b1ee9796, (-37));
(0x15edf5f1f2341f, (-38));
(0x1b6f8ce5fb53eb, (-40));
(0x1e406ad7108c74, (-42));
(0x1c8581b6afc7e8, (-44));
(0x15ddb6bcd86967, (-46));
(0x18bd171a07e38a, (-49));
(0x10000000000000, (-52))];
[(0x1a000000000000, (-47));
(0x1040ccc7c27e38, (-44));
(0x106cc25b7a11d9, (-42));
(0x1c745fa9e5dc20, (-41));
(0x15d0942a0bb8be, (-39));
(0x1e353ff305f787, (-38));
(0x1327001b918462, (-36));
(0x1676b29d39cfa0, (-35));
(0x188e99280a685d, (-34));
(0x192b96c775c305, (-33));
(0x184dcea9b4be75, (-32));
(0x163165aa27f73e, (-31));
(0x1339c5c4e86ad2, (-30));
(0x1faf54c62d6243, (-30));
(0x18e3e2133d9c10, (-29));
(0x12aca89fd704f4, (-28));
(0x1ace39735d7250, (-28));
(0x126d89e1cea277, (-27));
(0x184be6f7693b45, (-27));
(0x1ebf3ce9138e2b, (-27));
(0x12b00ec31c2b59, (-26));
(0x15d57c13e63e93, (-26));
(0x1887d5dc0200f8, (-26));
(0x1a8308a48eb749, (-26));
(0x1b91cb82d2f466, (-26));
(0x1b96a404233f02, (-26));
(0x1a910fb821f0d2, (-26));
(0x189d9a4717c7ee, (-26));
(0x15f0db03c58edb, (-26));
(0x12ce8a5bdf6724, (-26));
(0x1efd764dcaed77, (-27));
(0x1887136014f8e5, (-27));
(0x12a2727dbe46a6, (-27));
(0x1b27a7c939605c, (-28));
(0x12f4534ea8a71b, (-28));
(0x1950fd5ebbcf85, (-29));
(0x10269facd5a36b, (-29));
(0x13a66f1ca9e6ff, (-30));
(0x16bf8511902c4b, (-31));
(0x18fe4de66157ab, (-32));
(0x19fb644a5440ac, (-33));
(0x19761574d5bb56, (-34));
(0x176a09486d8bbd, (-35));
(0x141794951fc9c0, (-36));
(0x1ff2c523e0713f, (-38));
(0x1750debd633cfe, (-39));
(0x1ed9c97aeadc1d, (-41));
(0x122dd0cdb46f49, (-42));
(0x1295245a0e469d, (-44));
(0x1f89233efeda98, (-47));
(0x1465655f122ff6, (-49));
(0x10000000000000, (-52))];
[(0x10000000000000, (-52));
(0x1d1ed52076fbe9, (-50));
(0x128f8ac4cd992a, (-47));
(0x1321c7074cae5b, (-45));
(0x10e91087459169, (-43));
(0x1a780ecf5299bf, (-42));
(0x12b7657e267382, (-40));
(0x183fb7f506787a, (-39));
(0x1d12cb09aecfb5, (-38));
(0x1040a5d8b1b0d8, (-36));
(0x110bb96984d9a4, (-35));
(0x10d9d9fb820991, (-34));
(0x1f867a26c2203f, (-34));
(0x1bfe357fdb05a2, (-33));
(0x17a88d50a119cf, (-32));
(0x1312f2c64cba9b, (-31));
(0x1d6520f79a501d, (-31));
(0x15aedc62082005, (-30));
(0x1eaa1a4c46ef48, (-30));
(0x14cf3e645957d5, (-29));
(0x1b21e0426038f5, (-29));
(0x11018ee5803f7c, (-28));
(0x148296b73dcea9, (-28));
(0x17cfb80982cbc8, (-28));
(0x1a9f388d991a3b, (-28));
(0x1cac37b2056df7, (-28));
(0x1dc14dc29d5ce2, (-28));
(0x1dc14dc29d5ce2, (-28));
(0x1cac37b2056df7, (-28));
(0x1a9f388d991a3b, (-28));
(0x17cfb80982cbc8, (-28));
(0x148296b73dcea9, (-28));
(0x11018ee5803f7c, (-28));
(0x1b21e0426038f5, (-29));
(0x14cf3e645957d5, (-29));
(0x1eaa1a4c46ef48, (-30));
(0x15aedc62082005, (-30));
(0x1d6520f79a501d, (-31));
(0x1312f2c64cba9b, (-31));
(0x17a88d50a119cf, (-32));
(0x1bfe357fdb05a2, (-33));
(0x1f867a26c2203f, (-34));
(0x10d9d9fb820991, (-34));
(0x110bb96984d9a4, (-35));
(0x1040a5d8b1b0d8, (-36));
(0x1d12cb09aecfb5, (-38));
(0x183fb7f506787a, (-39));
(0x12b7657e267382, (-40));
(0x1a780ecf5299bf, (-42));
(0x10e91087459169, (-43));
(0x1321c7074cae5b, (-45));
(0x128f8ac4cd992a, (-47));
(0x1d1ed52076fbe9, (-50));
(0x10000000000000, (-52))]];
   [[(0x10000000000000, (-52))];
[(0x17a00000000000, (-44));
(0x1b7ed6159fadc7, (-48));
(0x10000000000000, (-52))];
[(0x1731c000000000, (-38));
(0x1b07aee824fe06, (-41));
(0x1797fea4ca0c66, (-44));
(0x1b7584fc155353, (-48));
(0x10000000000000, (-52))];
[(0x121ede00000000, (-33));
(0x1fc2995aa82fe8, (-36));
(0x1721faa366de34, (-38));
(0x1aec2b625ee68f, (-41));
(0x177ffa8d9d5382, (-44));
(0x1b62d946c44ef2, (-48));
(0x10000000000000, (-52))];
[(0x1e17d540000000, (-30));
(0x11a6fac32fb713, (-31));
(0x120c4642eb9718, (-33));
(0x1f8c80accfbbf7, (-36));
(0x16f2ca8d5fb7fa, (-38));
(0x1ab5403b9b8acf, (-41));
(0x1757f3a9a035ac, (-44));
(0x1b46bfc05aeb89, (-48));
(0x10000000000000, (-52))];
[(0x1ec30780000000, (-27));
(0x16ad8c72761c37, (-28));
(0x1dee4d77baee0c, (-30));
(0x117c9a8cef5c44, (-31));
(0x11d4cacb657aca, (-33));
(0x1f20f45bde1595, (-36));
(0x16a48fbd33a81d, (-38));
(0x1a63256c794353, (-41));
(0x171fe9dbfaef9c, (-44));
(0x1b211b1c70d023, (-48));
(0x10000000000000, (-52))];
[(0x15261528000000, (-24));
(0x12d6736c53f36f, (-25));
(0x1e8d58f517fb2b, (-27));
(0x1666e3e5c60c9a, (-28));
(0x1d72b57f99ad04, (-30));
(0x1128b28974025b, (-31));
(0x11794dd88fe1d8, (-33));
(0x1e813d66239269, (-36));
(0x1637ea31a55df2, (-38));
(0x19f62f60d2b012, (-41));
(0x16d7dcfaa45e0c, (-44));
(0x1af1c35b8c8d9f, (-48));
(0x10000000000000, (-52))];
[(0x14bdf736000000, (-22));
(0x15bc2c5584b023, (-23));
(0x14f926d703e06f, (-24));
(0x128dd45321cc66, (-25));
(0x1dee095b6ea529, (-27));
(0x15db8f727f42ff, (-28));
(0x1ca804b51254b7, (-30));
(0x10acef3e82d363, (-31));
(0x10fb4528ee6b17, (-33));
(0x1daf468c8ef474, (-36));
(0x15adb9e8dd056a, (-38));
(0x196ecf8a2e12b2, (-41));
(0x167fcccc928b33, (-44));
(0x1ab884ef702283, (-48));
(0x10000000000000, (-52))];
[(0x1e3fb32ec00000, (-21));
(0x124af31535552e, (-21));
(0x1489a642f5149f, (-22));
(0x1557a17f1677c0, (-23));
(0x147431d9a386be, (-24));
(0x11ff3cb2c0ea34, (-25));
(0x1cea3b059583c0, (-27));
(0x150f777c57d368, (-28));
(0x1b931644a7a090, (-30));
(0x100bc8c042ea37, (-31));
(0x105cb4fa550f06, (-33));
(0x1cad9902b1d8b9, (-36));
(0x15071ee04934cb, (-38));
(0x18cd95296e9377, (-41));
(0x1617b907289f25, (-44));
(0x1a751f9447b724, (-48));
(0x10000000000000, (-52))];
[(0x10e75c9a200000, (-19));
(0x174496d5a78f0a, (-20));
(0x1de6b05db4749d, (-21));
(0x11e78335783c17, (-21));
(0x13ef4d9b857a74, (-22));
(0x1493164598e1f4, (-23));
(0x139c9ec7b462ef, (-24));
(0x112fd9e38cbd9e, (-25));
(0x1b8a41f25f091e, (-27));
(0x14084ecbffbe71, (-28));
(0x1a3a87f3052d41, (-30));
(0x1e90ebea812bf9, (-32));
(0x1f4052139c682a, (-34));
(0x1b7f57f7983c5a, (-36));
(0x14457914715d2c, (-38));
(0x18132e55cf56c9, (-41));
(0x159fa14aa8784e, (-44));
(0x1a2744ce9674f4, (-48));
(0x10000000000000, (-52))];
[(0x1da04554300000, (-19));
(0x16f5b0c424a84d, (-19));
(0x10ae0b0ba8edff, (-19));
(0x16b220eb1d4e1e, (-20));
(0x1ce0e98d947950, (-21));
(0x1126070185af3d, (-21));
(0x12f68e81df7cbe, (-22));
(0x137758dc506620, (-23));
(0x127b1e6ac4053e, (-24));
(0x102721e7a2bc15, (-25));
(0x19d94e469f8c94, (-27));
(0x12cd61b596256d, (-28));
(0x18a68c7cf27248, (-30));
(0x1ccdb797ad533b, (-32));
(0x1d915726eb015b, (-34));
(0x1a283aec20bab6, (-36));
(0x136a6880b442ac, (-38));
(0x17406949642ff9, (-41));
(0x1517851d525fce, (-44));
(0x19ce95f75281f5, (-48));
(0x10000000000000, (-52))];
[(0x14b66c50780000, (-18));
(0x11eda9bc21eba6, (-18));
(0x1d2d865cc6701f, (-19));
(0x165016a2a8dd77, (-19));
(0x1006094ce54342, (-19));
(0x159688deca4192, (-20));
(0x1b3db4333fa638, (-21));
(0x1010ddbe276423, (-21));
(0x11ab8cb939403e, (-22));
(0x1210f2729b640e, (-23));
(0x111b32532bd91e, (-24));
(0x1ddcf3cab34756, (-26));
(0x17e4f916b72726, (-27));
(0x116757217a5e6c, (-28));
(0x16e0b26e1acec3, (-30));
(0x1ad6f115e140fc, (-32));
(0x1bb374a4877ff8, (-34));
(0x18ac86c7e25fb7, (-36));
(0x1277cd1ee9ff7f, (-38));
(0x165635fe22220f, (-41));
(0x147f63e4b3df08, (-44));
(0x196aa1b6b0ec77, (-48));
(0x10000000000000, (-52))];
[(0x176a0b23500000, (-18));
(0x167ee4067fd919, (-18));
(0x145b5a21a26aa7, (-18));
(0x115a9660337939, (-18));
(0x1bde656a09fb97, (-19));
(0x151118b842d598, (-19));
(0x1df59979e9cef9, (-20));
(0x14039ea0bb4895, (-20));
(0x191535d43d49e7, (-21));
(0x1d6d373755112d, (-22));
(0x101e1cb6b52e71, (-22));
(0x106f655f1cf216, (-23));
(0x1f151e5fad4da3, (-25));
(0x1b218ae627a804, (-26));
(0x15bcb7e3c64098, (-27));
(0x1fbfca94c292d4, (-29));
(0x14f3a08ea805b1, (-30));
(0x18b696e7208afd, (-32));
(0x19ae72ff8c9102, (-34));
(0x171105996c86de, (-36));
(0x116fc6e6dc52ea, (-38));
(0x1555a82a09dcf0, (-41));
(0x13d73cdc6739a8, (-44));
(0x18fae0c15ad389, (-48));
(0x10000000000000, (-52))];
[(0x159cf696c00000, (-18));
(0x16f0f071c29605, (-18));
(0x16f5a4aae74840, (-18));
(0x15ae11148c46f1, (-18));
(0x13526580750d23, (-18));
(0x1040dd44c582d6, (-18));
(0x19cd2ad7c2a018, (-19));
(0x134fd7f06cda3f, (-19));
(0x1b3c5cfa777657, (-20));
(0x121215bc9fc5af, (-20));
(0x16866ac3bfc46e, (-21));
(0x1a51e9b6e61036, (-22));
(0x1cc168d5233412, (-23));
(0x1d487e14b4a365, (-24));
(0x1bb0c3c3c315b3, (-25));
(0x1833c8327b46d1, (-26));
(0x13713c418a0500, (-27));
(0x1c82f8da958d25, (-29));
(0x12eac947aaf887, (-30));
(0x167771e9636715, (-32));
(0x178ac9a772c7ac, (-34));
(0x155afce991bc16, (-36));
(0x1054b5cd803cde, (-38));
(0x143ff9add2c43c, (-41));
(0x131f0f09210cf6, (-44));
(0x187eb1990b697a, (-48));
(0x10000000000000, (-52))];
[(0x1068f41d200000, (-18));
(0x132da4c2bb0c3f, (-18));
(0x1523c13636e0d1, (-18));
(0x1600bba0311df3, (-18));
(0x15a46c3d2e7d16, (-18));
(0x14207d11d0d724, (-18));
(0x11b33cc951dc29, (-18));
(0x1d6fa5536d943b, (-19));
(0x17224db7b834a8, (-19));
(0x112bf22eb9e195, (-19));
(0x180d65370731f2, (-20));
(0x1fbeadabee5f7b, (-21));
(0x13b4a75ca125bd, (-21));
(0x16f6e5000113a8, (-22));
(0x190e6659cc6aed, (-23));
(0x19841ae38f6b2d, (-24));
(0x1829041f2d8b73, (-25));
(0x152c46cb4360ad, (-26));
(0x1113c606f8cf88, (-27));
(0x192dd4141aa2a9, (-29));
(0x10d2169e4be435, (-30));
(0x1424d780912638, (-32));
(0x15517d06f10a48, (-34));
(0x139022832713cb, (-36));
(0x1e5273879dcbe5, (-39));
(0x13168d8febacbb, (-41));
(0x1256d92647b823, (-44));
(0x17f552f5767564, (-48));
(0x10000000000000, (-52))];
[(0x1498ebc8c00000, (-19));
(0x1a71ce3ec7294f, (-19));
(0x100135d6c77760, (-18));
(0x124b8061c004d2, (-18));
(0x13c63ba719acfe, (-18));
(0x143a7178c9bdce, (-18));
(0x139883d718b2d2, (-18));
(0x11fb784a28c9cd, (-18));
(0x1f43c2d83adc46, (-19));
(0x19bdbb28e9c11f, (-19));
(0x140feccfe65ebd, (-19));
(0x1d948223a4f203, (-20));
(0x149acf96baf962, (-20));
(0x1b15eb43044d4a, (-21));
(0x10c4d03b9cc89b, (-21));
(0x1384198307511e, (-22));
(0x154b310ebef69c, (-23));
(0x15b6944ec5f513, (-24));
(0x149d3c70aa1c74, (-25));
(0x12235943cf32c7, (-26));
(0x1d6ade59a0c2ef, (-28));
(0x15d5ef57ca7be5, (-29));
(0x1d6b214b6e2b91, (-31));
(0x11ca663ccc0b36, (-32));
(0x130bf8825eb5f5, (-34));
(0x11b68f88bcfa59, (-36));
(0x1be0656a0aace8, (-39));
(0x11daf3a699540a, (-41));
(0x117e998b426fc9, (-44));
(0x175ddc4efa914a, (-48));
(0x10000000000000, (-52))];
[(0x156d89efd00000, (-20));
(0x1e2f98a03a0253, (-20));
(0x1406039c500f71, (-19));
(0x1912abbc8ab472, (-19));
(0x1daf316c5757f9, (-19));
(0x10a2f4e68680df, (-18));
(0x11ac4b02ec823e, (-18));
(0x11ce21f3b38629, (-18));
(0x11051d29f8d6ae, (-18));
(0x1ee0cdf295fe44, (-19));
(0x1a94164a686ea0, (-19));
(0x15b3838a735415, (-19));
(0x10cc5babcf8d91, (-19));
(0x18a259e00f22be, (-20));
(0x11173b760a3243, (-20));
(0x16681dc009363d, (-21));
(0x1bb51917075ea0, (-22));
(0x101f936031f8fa, (-22));
(0x119d85f1a8ebbb, (-23));
(0x12029b2de21fb8, (-24));
(0x112adbcd9324eb, (-25));
(0x1e5fd6ae5b1004, (-27));
(0x18ccf214bf4b2f, (-28));
(0x129010fda9ae87, (-29));
(0x1942010f66fc48, (-31));
(0x1ee77badd99cd4, (-33));
(0x10c3e475531206, (-34));
(0x1fa9634f65c2a3, (-37));
(0x19598107d495fc, (-39));
(0x108eed20a13d88, (-41));
(0x10964e03dd9001, (-44));
(0x16b733bfd8c648, (-48));
(0x10000000000000, (-52))];
[(0x127c9f29400000, (-21));
(0x1c920d3fc00000, (-21));
(0x14c0b8ee27e199, (-20));
(0x1c6ba207274fba, (-20));
(0x12630679328453, (-19));
(0x1684e7b34b1699, (-19));
(0x1a24a56a4113a7, (-19));
(0x1cccec04c3cac5, (-19));
(0x1e21c34da5f6bb, (-19));
(0x1df4853fa179d7, (-19));
(0x1c4e121e5ed3bf, (-19));
(0x196c41d7de538d, (-19));
(0x15b3838a735415, (-19));
(0x11992315841a67, (-19));
(0x1b18fc76770c9e, (-20));
(0x13ca0ef4779884, (-20));
(0x1b62cf0727b412, (-21));
(0x11eda6d2aa6a67, (-21));
(0x162b6aa444b657, (-22));
(0x19d5f7a6b37bdf, (-23));
(0x1c4d3cfef59f8f, (-24));
(0x1d0d73f96f2ac9, (-25));
(0x1bd7da1fd37959, (-26));
(0x18ccf214bf4b2f, (-27));
(0x146b45e3d43ffb, (-28));
(0x1edee4d9efa61f, (-30));
(0x153f2507859bd2, (-31));
(0x1a586701828a0a, (-33));
(0x1d05f05e1d47c0, (-35));
(0x1be2745569d82e, (-37));
(0x16c4860cddb49b, (-39));
(0x1e68e45c6b8802, (-42));
(0x1f3be727ca10a3, (-45));
(0x16000000000000, (-48));
(0x10000000000000, (-52))];
[(0x1a68e35f800000, (-23));
(0x1668cdc9329717, (-22));
(0x11d35de00b26bb, (-21));
(0x1aae4b6a38ec34, (-21));
(0x12d71bd9ae7537, (-20));
(0x192a016754d4d9, (-20));
(0x1fd8ce943a90aa, (-20));
(0x131f9a2b098e5c, (-19));
(0x15d1d4f760dd65, (-19));
(0x17ac812776c085, (-19));
(0x1870b01a5f6128, (-19));
(0x18047eb454adc9, (-19));
(0x16788a7ef84e71, (-19));
(0x1403ec77959ede, (-19));
(0x10f80485db1411, (-19));
(0x1b5f6a0be38f19, (-20));
(0x14fd5dcbd7b6b0, (-20));
(0x1e93755f707e6c, (-21));
(0x1520f4d2f64b0a, (-21));
(0x1ba9fc7aebe019, (-22));
(0x11207b7c5325bd, (-22));
(0x14032838478e87, (-23));
(0x1602b8b90a84e9, (-24));
(0x16b78f835ebd95, (-25));
(0x15ebba6707ff71, (-26));
(0x13b053d932d234, (-27));
(0x105f2476213535, (-28));
(0x190a17eb94bfc0, (-30));
(0x1176f3092164bf, (-31));
(0x15fd075ee2fa24, (-33));
(0x18a58fd9c7a88c, (-35));
(0x18261537895b02, (-37));
(0x1428b3fcdc6379, (-39));
(0x1b9b724daee7ec, (-42));
(0x1d2b0c30200315, (-45));
(0x1536948017480f, (-48));
(0x10000000000000, (-52))];
[(0x1f1b099e000000, (-25));
(0x1d0be080780f3d, (-24));
(0x1954d0edc35810, (-23));
(0x14b9c236e5a524, (-22));
(0x1fef0e15e370ba, (-22));
(0x173b9ef83131da, (-21));
(0x10001b5dd497a2, (-20));
(0x14e721b39dd97b, (-20));
(0x19f0b7cb228d13, (-20));
(0x1e9e443f17d0b7, (-20));
(0x1134095d7f1689, (-19));
(0x126afdc7b2b00c, (-19));
(0x12cbaaf9ce648c, (-19));
(0x1249e03191465a, (-19));
(0x10f80485db1411, (-19));
(0x1e05e2b3606e4e, (-20));
(0x1950e6403ef9b2, (-20));
(0x145647182ca240, (-20));
(0x1f1b42ce316ddd, (-21));
(0x16a06b86641dda, (-21));
(0x1f45650576c522, (-22));
(0x147fb4fc869f77, (-22));
(0x19730d381e7eeb, (-23));
(0x1ddb4ee72c0f1b, (-24));
(0x10820a8ac7e3af, (-24));
(0x11279b551cc154, (-25));
(0x10b12544014f9a, (-26));
(0x1e48777494e1e3, (-28));
(0x19794e2aa6e2e4, (-29));
(0x13bde8b2f5bcf5, (-30));
(0x1bf65cad0bc062, (-32));
(0x11e9056bbd4b94, (-33));
(0x14791da2558638, (-35));
(0x14823d1a44b78d, (-37));
(0x118dca1a561aee, (-39));
(0x18ba7f636b6b44, (-42));
(0x1af9ff552f5dbf, (-45));
(0x1458d455549c1a, (-48));
(0x10000000000000, (-52))];
[(0x1dfd2f58000000, (-27));
(0x1eee696238a7b9, (-26));
(0x1da4ca283a67de, (-25));
(0x1a8d0a612f8812, (-24));
(0x1653b174a226c9, (-23));
(0x11b126057d1edd, (-22));
(0x1a8009c837d17e, (-22));
(0x12cdb98e5333e9, (-21));
(0x195524ada9580d, (-21));
(0x1039d0ea8eb1e6, (-20));
(0x13ca52292977ca, (-20));
(0x17017a7ca81d65, (-20));
(0x1982815a3a64fc, (-20));
(0x1aff3cb6e5a4d5, (-20));
(0x1b4774f4db3599, (-20));
(0x1a52b0b2746f4f, (-20));
(0x1841c911c6fe90, (-20));
(0x1557e1f9174871, (-20));
(0x11eccb4aba7eae, (-20));
(0x1cb9046057ac7f, (-21));
(0x15eff5a66da113, (-21));
(0x1fea04dcd33171, (-22));
(0x161528043d0c08, (-22));
(0x1d074457b295af, (-23));
(0x121789f5fc13d8, (-23));
(0x155710b489f0bb, (-24));
(0x17c299de49a0a2, (-25));
(0x18e5cc257a309e, (-26));
(0x1877945260a14e, (-27));
(0x1673dac9d65f0d, (-28));
(0x1323f25152e268, (-29));
(0x1e1f6ec867c467, (-31));
(0x15b4adbf3bbcc8, (-32));
(0x1c5b36f39dc0c2, (-34));
(0x1091e9a7dca85c, (-35));
(0x1104e3fa08c669, (-37));
(0x1df80e72c5cb20, (-40));
(0x15cbad6abe652e, (-42));
(0x18a8af331aca48, (-45));
(0x13640630445305, (-48));
(0x10000000000000, (-52))];
[(0x1767f300000000, (-29));
(0x1ad0a3e50d6ec4, (-28));
(0x1c59581ac68368, (-27));
(0x1bdd948347d79e, (-26));
(0x199d76b829ce3f, (-25));
(0x161f439f0cd508, (-24));
(0x120442541ecc9e, (-23));
(0x1bc1e9af12729f, (-23));
(0x144669eaec5bf9, (-22));
(0x1c24860c3bcb2d, (-22));
(0x1296cb4d800169, (-21));
(0x17676e9b058f8c, (-21));
(0x1c1d0fc2b57349, (-21));
(0x101fcc43458920, (-20));
(0x11ac777ee01f4e, (-20));
(0x128511d0216039, (-20));
(0x128edae6a4414a, (-20));
(0x11c91702988bc0, (-20));
(0x104d1bfe4a7f86, (-20));
(0x1c924275379138, (-21));
(0x17ee8058779872, (-21));
(0x132602eae51daa, (-21));
(0x1d3ff2333cd6c4, (-22));
(0x154de5f4433cd3, (-22));
(0x1d8fa1c18c9f78, (-23));
(0x1381f8a1252339, (-23));
(0x1872ba3e5e216d, (-24));
(0x1d090faebca64a, (-25));
(0x104ca140cb6157, (-25));
(0x113fe57addd536, (-26));
(0x1125ff1a6d2d8c, (-27));
(0x1fe53a45f3dead, (-29));
(0x1b9ba5152f6994, (-30));
(0x161aa505429b48, (-31));
(0x103e3cd20e202b, (-32));
(0x15b1f7aba4cbe1, (-34));
(0x19ff429debceef, (-36));
(0x1b778e4db735df, (-38));
(0x18f852d24976ca, (-40));
(0x12d5646fbd87f8, (-42));
(0x1637010ecf504b, (-45));
(0x12548eb9151e85, (-48));
(0x10000000000000, (-52))];
[(0x1d18c400000000, (-32));
(0x12aaa110fa5d55, (-30));
(0x15e4f48c2c6937, (-29));
(0x17b61f99cec04e, (-28));
(0x17e3c55e879569, (-27));
(0x168601114c8178, (-26));
(0x13f6c6c3b25b7c, (-25));
(0x10b2cc607ffd97, (-24));
(0x1a70f21ed2c304, (-24));
(0x13dd8bcc66714d, (-23));
(0x1c629448e480c3, (-23));
(0x13513b4d70b028, (-22));
(0x1914ba8d582192, (-22));
(0x1f198ab99c25df, (-22));
(0x126e774d42abf9, (-21));
(0x14e63cd173cdc1, (-21));
(0x16ae99c48fde05, (-21));
(0x179216abcd6332, (-21));
(0x1775534635a72a, (-21));
(0x165c5047253409, (-21));
(0x14698f38e2f3b8, (-21));
(0x11d749a22d5134, (-21));
(0x1dd916f512119a, (-22));
(0x17e1e1e3ee1a14, (-22));
(0x1243be660e4c62, (-22));
(0x1aad5c6140d4fa, (-23));
(0x12952760c27556, (-23));
(0x18a8a2f738af1b, (-24));
(0x1f1da7381ab62d, (-25));
(0x12a1b698312f8c, (-25));
(0x152058b2a5019b, (-26));
(0x169e3658718fe8, (-27));
(0x16c98538155d78, (-28));
(0x1584672823e586, (-29));
(0x12f346f5107add, (-30));
(0x1ef21a3a9072ff, (-32));
(0x173feb44e8d27c, (-33));
(0x1fd6feee61683b, (-35));
(0x139f960ec7f480, (-36));
(0x1568469bc2dc2f, (-38));
(0x142eda84be878c, (-40));
(0x1fbdfbe78d505e, (-43));
(0x13a4c99b6c6987, (-45));
(0x11257c5187fd08, (-48));
(0x10000000000000, (-52))];
[(0x1c1ce000000000, (-35));
(0x1472757ba94639, (-33));
(0x1ad4cbe61ab63f, (-32));
(0x1019f5920d1c80, (-30));
(0x11da564b1b71d0, (-29));
(0x126d041dc424f8, (-28));
(0x11ce6d31fc5d89, (-27));
(0x1030062d710f37, (-26));
(0x1bcaca035a2cad, (-26));
(0x16993662898cc8, (-25));
(0x11733266feeddd, (-24));
(0x19a569699fc13e, (-24));
(0x11f7782320929d, (-23));
(0x1808c40881ca9c, (-23));
(0x1ebbb07c658554, (-23));
(0x12cd420a0a634a, (-22));
(0x1607a544e41d87, (-22));
(0x18bbc0c0de8653, (-22));
(0x1a9ecef1a7830c, (-22));
(0x1b79854f6e35b7, (-22));
(0x1b3241de32ebca, (-22));
(0x19d1de33e16aeb, (-22));
(0x1781ee0ab906cc, (-22));
(0x1484e13c1113c2, (-22));
(0x112a0b44c81d58, (-22));
(0x1b80f3cee29a4f, (-23));
(0x151715752fec67, (-23));
(0x1eed99c4c4f622, (-24));
(0x15a91604fc5769, (-24));
(0x1cf0b53ec3cf78, (-25));
(0x12697c9d6cd2dc, (-25));
(0x1644e5d2b53272, (-26));
(0x198b60d1c8be9c, (-27));
(0x1bb714cb8a234c, (-28));
(0x1c59f54abb1b8d, (-29));
(0x1b3d387ccf107e, (-30));
(0x1876f8cebe0b22, (-31));
(0x146c3a59b528cd, (-32));
(0x1f76e8f5ddd262, (-34));
(0x16298fef8d9de3, (-35));
(0x1c34e5bc85b1ac, (-37));
(0x1fe983494f609c, (-39));
(0x1f5e316a0285c1, (-41));
(0x19e20265399c61, (-43));
(0x10f1bdc8f75f1f, (-45));
(0x1f9f6e4990f227, (-49));
(0x10000000000000, (-52))];
[(0x14564000000000, (-38));
(0x11161ffa43b32e, (-36));
(0x196522009eb13d, (-35));
(0x110844afc0a68b, (-33));
(0x14e81f835ac2b1, (-32));
(0x17b852a4900647, (-31));
(0x19106cdf3928f5, (-30));
(0x18cfefdc7d5fa6, (-29));
(0x171ed9b05d8d7e, (-28));
(0x145b41d4c33cc5, (-27));
(0x10fce9eb4a6430, (-26));
(0x1af1c40b7432fd, (-26));
(0x14599a1e742bcc, (-25));
(0x1d53d5e95c6803, (-25));
(0x14315b720aa7ba, (-24));
(0x1a9a7d629e2f52, (-24));
(0x10c8b131514c01, (-23));
(0x144cca55071567, (-23));
(0x178d08e403f61c, (-23));
(0x1a38c10400fd1a, (-23));
(0x1c07a05d845621, (-23));
(0x1cc5fe90dc273c, (-23));
(0x1c5e2369178083, (-23));
(0x1adc4229dae821, (-23));
(0x186c2d73e5bfa1, (-23));
(0x155159150721e1, (-23));
(0x11db21eb466bcb, (-23));
(0x1cb039159a2dad, (-24));
(0x16164c3f704f42, (-24));
(0x1048675721a56d, (-24));
(0x16f6c0392ba6c8, (-25));
(0x1ef03df3369a75, (-26));
(0x13e111b41879f0, (-26));
(0x1852bbc7e11552, (-27));
(0x1c466e417562ca, (-28));
(0x1f262ed23a16d5, (-29));
(0x1035e5774d9c27, (-29));
(0x1fc41a539113b1, (-31));
(0x1d2b67329b3566, (-32));
(0x18f781ccc11256, (-33));
(0x13c8aad6edbf15, (-34));
(0x1cc6c9f2ce2d36, (-36));
(0x12fdd52567d1f7, (-37));
(0x1666b472ab3ac0, (-39));
(0x171ae57dab1cca, (-41));
(0x142af1e4b5b2f8, (-43));
(0x1c3a9e12409338, (-46));
(0x1c90d29d2d43cd, (-49));
(0x10000000000000, (-52))];
[(0x14b80000000000, (-42));
(0x14bc3f907fe497, (-40));
(0x11c8bbca2fa994, (-38));
(0x1afe904b8d809a, (-37));
(0x127fa1074393ff, (-35));
(0x17360b49cfee7b, (-34));
(0x1aeed826c4a22b, (-33));
(0x1d1efd0c81a73d, (-32));
(0x1d83c71fa4d89f, (-31));
(0x1c2c5558632bdd, (-30));
(0x196cdbac4900c5, (-29));
(0x15c31177cd30e8, (-28));
(0x11b65f38b8e754, (-27));
(0x1b7a5e54e0f50e, (-27));
(0x14599a1e742bcc, (-26));
(0x1cd2e2c4801bbb, (-26));
(0x138bb48ec978b0, (-25));
(0x1968edefa4391d, (-25));
(0x1fb17c815d5a23, (-25));
(0x12fa3bc8463b77, (-24));
(0x15d57c13e63e93, (-24));
(0x1824ef253b8c2f, (-24));
(0x19ab846602fd80, (-24));
(0x1a3ed215248683, (-24));
(0x19ce7ed42ffcc7, (-24));
(0x18672c7e822b32, (-24));
(0x16303017f5c9c2, (-24));
(0x1364a55275c98b, (-24));
(0x104983ac6bd40a, (-24));
(0x1a45eb750a4b78, (-25));
(0x145655a30d2bd6, (-25));
(0x1e3102046fbbb2, (-26));
(0x1577c422b150ad, (-26));
(0x1d35ef8960488a, (-27));
(0x12fcbe070cdba3, (-27));
(0x178b32b16af285, (-28));
(0x1bca1ba7f2c28c, (-29));
(0x1f262ed23a16d5, (-30));
(0x1088149b573e4f, (-30));
(0x108f7271a4e308, (-31));
(0x1f2efd5e744bdf, (-33));
(0x1b74a16ad4e152, (-34));
(0x1676b29d39cfa0, (-35));
(0x10f172a587f198, (-36));
(0x1750debd633cfe, (-38));
(0x1cdbb40b4090f1, (-40));
(0x1f7ca52799277c, (-42));
(0x1d61b3b2043f59, (-44));
(0x164c9205aabb23, (-46));
(0x18fae0c15ad389, (-49));
(0x10000000000000, (-52))];
[(0x1a800000000000, (-47));
(0x10bafb6d70486e, (-44));
(0x11142411a6da0d, (-42));
(0x1de4c6fb67d06f, (-41));
(0x17290cf5684687, (-39));
(0x10357896c6221a, (-37));
(0x14c7bf2ec35664, (-36));
(0x18a5ef533fbc3c, (-35));
(0x1b419e5913e2ba, (-34));
(0x1c446b04ab920d, (-33));
(0x1b9ff438ed7d47, (-32));
(0x1989d56e910326, (-31));
(0x1667c40baadd2d, (-30));
(0x12b41ff1a4e86b, (-29));
(0x1dc7802a95363b, (-29));
(0x16a6804b7b1d98, (-28));
(0x107c923148a170, (-27));
(0x16ff93b9353376, (-27));
(0x1ec71986fc5378, (-27));
(0x13c6a2346a2dd9, (-26));
(0x186c526a916a80, (-26));
(0x1d01742c1151c2, (-26));
(0x109270d883f3e0, (-25));
(0x123a10129b2645, (-25));
(0x134d0900423304, (-25));
(0x13ae5f72dc5e8c, (-25));
(0x1353957b9cbf7b, (-25));
(0x12467d33cca0f0, (-25));
(0x10a383587fb065, (-25));
(0x1d29b350f83d3c, (-26));
(0x18973c17fd9b6d, (-26));
(0x13f0ffde4be835, (-26));
(0x1f15802a8a878c, (-27));
(0x17440a1f8bf9b4, (-27));
(0x10b539be4e7674, (-27));
(0x16ff93b9353376, (-28));
(0x1e4cb9a6aeff2f, (-29));
(0x1312f2c64cba9b, (-29));
(0x16e83b3472c741, (-30));
(0x1a2f5febe6defc, (-31));
(0x1c6aa13a814a78, (-32));
(0x1d2fcf59ca4cbe, (-33));
(0x1c446b04ab920d, (-34));
(0x19b28fd5b33ef4, (-35));
(0x15ce1847431bc8, (-36));
(0x1125851885618e, (-37));
(0x18c26bf65b2020, (-39));
(0x10357896c6221a, (-40));
(0x12e80a94166dd2, (-42));
(0x1321c7074cae5b, (-44));
(0x1012f4c551be2a, (-46));
(0x14975cd5768087, (-49));
(0x10000000000000, (-52))];
[(0x10000000000000, (-52));
(0x1d64d51e0db1c5, (-50));
(0x12ea0e46671a93, (-47));
(0x13afc57c00cf8c, (-45));
(0x1192e55760f0d3, (-43));
(0x1bc96102783a76, (-42));
(0x13da0b1b7df34f, (-40));
(0x19fdf4eb723636, (-39));
(0x1f80101ffbdf6f, (-38));
(0x11cdc2e7c6cefb, (-36));
(0x12e23c6644d7d3, (-35));
(0x12e23c6644d7d3, (-34));
(0x11df87cca8f23d, (-33));
(0x10101b6f92082c, (-32));
(0x1b7d13d889bbe7, (-32));
(0x1671bfeec5e3b4, (-31));
(0x118546426b1e16, (-30));
(0x1a31e3950f2a80, (-30));
(0x12c72fc03c3191, (-29));
(0x19d910bac20d38, (-29));
(0x1118c6ff2ba677, (-28));
(0x15c117210cfd51, (-28));
(0x1aa4b6ffe4742e, (-28));
(0x1f6d46bc393153, (-28));
(0x11dbca072218d6, (-27));
(0x139024e4b1dea9, (-27));
(0x14a9308f746e54, (-27));
(0x150a3f4457aa38, (-27));
(0x14a9308f746e54, (-27));
(0x139024e4b1dea9, (-27));
(0x11dbca072218d6, (-27));
(0x1f6d46bc393153, (-28));
(0x1aa4b6ffe4742e, (-28));
(0x15c117210cfd51, (-28));
(0x1118c6ff2ba677, (-28));
(0x19d910bac20d38, (-29));
(0x12c72fc03c3191, (-29));
(0x1a31e3950f2a80, (-30));
(0x118546426b1e16, (-30));
(0x1671bfeec5e3b4, (-31));
(0x1b7d13d889bbe7, (-32));
(0x10101b6f92082c, (-32));
(0x11df87cca8f23d, (-33));
(0x12e23c6644d7d3, (-34));
(0x12e23c6644d7d3, (-35));
(0x11cdc2e7c6cefb, (-36));
(0x1f80101ffbdf6f, (-38));
(0x19fdf4eb723636, (-39));
(0x13da0b1b7df34f, (-40));
(0x1bc96102783a76, (-42));
(0x1192e55760f0d3, (-43));
(0x13afc57c00cf8c, (-45));
(0x12ea0e46671a93, (-47));
(0x1d64d51e0db1c5, (-50));
(0x10000000000000, (-52))]];
   [[(0x1c000000000000, (-48));
(0x10000000000000, (-52))];
[(0x1c8c0000000000, (-41));
(0x187bffac5ad4cd, (-44));
(0x1bfb6d57433c58, (-48));
(0x10000000000000, (-52))];
[(0x11655000000000, (-35));
(0x18ea2aa8eb218b, (-38));
(0x1c7dfc8f7a2447, (-41));
(0x186bfd0d441f18, (-44));
(0x1bedb0defaf661, (-48));
(0x10000000000000, (-52))];
[(0x140fe380000000, (-31));
(0x142d9fb6bca12a, (-33));
(0x11570420195880, (-35));
(0x18c97ff02f71a5, (-38));
(0x1c53ffeded142b, (-41));
(0x184bf7c4ba48b9, (-44));
(0x1bd6bd06c2f234, (-48));
(0x10000000000000, (-52))];
[(0x1abfda00000000, (-28));
(0x115fcf6025e522, (-29));
(0x13f8a448021843, (-31));
(0x1405bbfaedda99, (-33));
(0x112c4a8b98e532, (-35));
(0x18886a7e4822da, (-38));
(0x1c0e33419dfdc2, (-41));
(0x181befbd9d4690, (-44));
(0x1bb67ae8584caa, (-48));
(0x10000000000000, (-52))];
[(0x171245a0000000, (-25));
(0x126c7332f26b43, (-26));
(0x1a979bf3b1a9c7, (-28));
(0x1131a861514549, (-29));
(0x13b3591e5506ae, (-31));
(0x13b6914f901a20, (-33));
(0x10e5a11fa01665, (-35));
(0x18276a524ebea1, (-38));
(0x1bacdb6a50f722, (-41));
(0x17dbe4d7336f1d, (-44));
(0x1b8cc9d3952a45, (-48));
(0x10000000000000, (-52))];
[(0x1ba7f448000000, (-23));
(0x1a4a967eebf985, (-24));
(0x16e7511313485b, (-25));
(0x122ea1fd9d980b, (-26));
(0x1a1ff94b428c16, (-28));
(0x10d66bf8e8e284, (-29));
(0x1341574d1d190f, (-31));
(0x1341574d1d190f, (-33));
(0x1083d8bd36d072, (-35));
(0x17a73f6ad86e89, (-38));
(0x1b3059735c5e8f, (-41));
(0x178bd6e3d4a391, (-44));
(0x1b597ea47fdda2, (-48));
(0x10000000000000, (-52))];
[(0x1832f5bf000000, (-21));
(0x1ac722de00fd76, (-22));
(0x1b6a29304f0fdb, (-23));
(0x19df5215b973ec, (-24));
(0x1667f6c47372a1, (-25));
(0x11b4ec052bd9f3, (-26));
(0x195c2f87f1ecc6, (-28));
(0x105036516d108d, (-29));
(0x12a4d05d0eee59, (-31));
(0x12a7dc583c443f, (-33));
(0x100813efdba652, (-35));
(0x1708e9c5df7bcb, (-38));
(0x1a992b37b1e09b, (-41));
(0x172bc5a6fc1b2c, (-44));
(0x1b1c62db2564fe, (-48));
(0x10000000000000, (-52))];
[(0x10039b18c00000, (-19));
(0x144aa1bfd9c924, (-20));
(0x17f36b933acdab, (-21));
(0x1a459b97e19760, (-22));
(0x1ab37986583700, (-23));
(0x190d00acdd1724, (-24));
(0x1598af3ce77f71, (-25));
(0x1103172dd24e54, (-26));
(0x185187907ec99b, (-28));
(0x1f444095354c5a, (-30));
(0x11e0c73aa9ba25, (-31));
(0x11ec7fa1af2773, (-33));
(0x1ee78a0b0716ae, (-36));
(0x164da960a1c591, (-38));
(0x19e7ec3c7f19bc, (-41));
(0x16bbb0d2986ee3, (-44));
(0x1ad5336963eefb, (-48));
(0x10000000000000, (-52))];
[(0x10757bd9700000, (-18));
(0x1796c0c0041de8, (-19));
(0x1fa5d654bb2799, (-20));
(0x13d84b06012550, (-20));
(0x1738200a1f4ef2, (-21));
(0x1948be027f50fd, (-22));
(0x198bd1ae510d83, (-23));
(0x17dbd91ef40bd4, (-24));
(0x1480b47f974621, (-25));
(0x101e9d7b8698f3, (-26));
(0x17072a1e2dff12, (-28));
(0x1da055f2cc4c1e, (-30));
(0x10f90127309184, (-31));
(0x1112292634cda9, (-33));
(0x1d915726eb015b, (-36));
(0x1576fe37706f7a, (-38));
(0x191d56c8d25608, (-41));
(0x163b98035e266b, (-44));
(0x1a839f261422cd, (-48));
(0x10000000000000, (-52))];
[(0x1acdf595500000, (-18));
(0x1585d8526e311c, (-18));
(0x103c27a15120e2, (-18));
(0x16fdd929949651, (-19));
(0x1e87b343dcece0, (-20));
(0x12fa185c705604, (-20));
(0x160ace4c2c2db6, (-21));
(0x17dc843a893a08, (-22));
(0x17ffe20894bb69, (-23));
(0x1657a4ccae8b91, (-24));
(0x1329ae709c4465, (-25));
(0x1e1ced8c6346e9, (-27));
(0x1585e465555544, (-28));
(0x1bbe49cfe8e2bc, (-30));
(0x1fe3e53244c26c, (-32));
(0x101c3fae617b12, (-33));
(0x1c11a2c3b01d10, (-36));
(0x1486a8456b04fc, (-38));
(0x183a4542e51068, (-41));
(0x15ab7abbc4f023, (-44));
(0x1a2744ce9674f4, (-48));
(0x10000000000000, (-52))];
[(0x118f885a7c0000, (-17));
(0x1f5f3ba122dfe0, (-18));
(0x1a63cd11bb222c, (-18));
(0x14e6cc0f877cb1, (-18));
(0x1f287f54907110, (-19));
(0x15d6221b4eb9b5, (-19));
(0x1cbe3d0e538adb, (-20));
(0x11bc7b382073d1, (-20));
(0x147ae56f5fbde8, (-21));
(0x1611e9697fcce2, (-22));
(0x16206154608239, (-23));
(0x148f23a76c4ee8, (-24));
(0x119f4321ca8cc7, (-25));
(0x1bb5a6ddf7ab5a, (-27));
(0x13d7de9cf99bc4, (-28));
(0x19a9132b20323b, (-30));
(0x1da15075c2d46d, (-32));
(0x1e1d399ccda306, (-34));
(0x1a6d0d6be48636, (-36));
(0x137ea7841d3358, (-38));
(0x173fb3de7b1938, (-41));
(0x150b585d2da9f4, (-44));
(0x19bfb076d236ea, (-48));
(0x10000000000000, (-52))];
[(0x12bb3c1c400000, (-17));
(0x1282b51cb8f889, (-17));
(0x1140de186a2935, (-17));
(0x1e589fffd3386d, (-18));
(0x192dfbb9c454e7, (-18));
(0x13b4c7a7517c6b, (-18));
(0x1d132e2e165b11, (-19));
(0x1432d7cadc90e0, (-19));
(0x1a64d4594b965f, (-20));
(0x1030df978cc18f, (-20));
(0x129c6c87105fc4, (-21));
(0x13fdcff0eeff01, (-22));
(0x1401144d71421f, (-23));
(0x129349b5a0068a, (-24));
(0x1fdd204625a236, (-26));
(0x1919954f2aae46, (-27));
(0x120846785368fa, (-28));
(0x176cb7ad33b9de, (-30));
(0x1b35588386ce31, (-32));
(0x1bdafdcb8ce3f3, (-34));
(0x18a8bbe1f2f164, (-36));
(0x12613beaf14e38, (-38));
(0x162ec2ab6ad94c, (-41));
(0x145b301e6ed821, (-44));
(0x194c583ada5b52, (-48));
(0x10000000000000, (-52))];
[(0x1068f41d200000, (-17));
(0x11ddc47d6839e9, (-17));
(0x125ca51b2a20a3, (-17));
(0x11d3f2b41026c0, (-17));
(0x105c2a7d487c7c, (-17));
(0x1c6225172aa88f, (-18));
(0x1745737afd9dba, (-18));
(0x12069f2cb127fa, (-18));
(0x1a5d175fbe7125, (-19));
(0x122e8dab291951, (-19));
(0x179e71357beb83, (-20));
(0x1cd89df0b9a353, (-21));
(0x10869654d81438, (-21));
(0x11b7aa64d86932, (-22));
(0x11b7aa64d86932, (-23));
(0x107660ca385ac3, (-24));
(0x1c4b2631c0def8, (-26));
(0x165bfec52a7d83, (-27));
(0x1022f00db3ac15, (-28));
(0x1515f7a8e420a4, (-30));
(0x18abd0c823e137, (-32));
(0x197af23dcc2b8d, (-34));
(0x16ca4ced53828d, (-36));
(0x1130e56e61c8c5, (-38));
(0x1508b8183d8e02, (-41));
(0x139b00fe9f6b8a, (-44));
(0x18cc97f2912db5, (-48));
(0x10000000000000, (-52))];
[(0x17c423c0400000, (-18));
(0x1c6c43d8830d9a, (-18));
(0x100bb3d9c4252a, (-17));
(0x112005bb9b3a10, (-17));
(0x114acb5af9ec66, (-17));
(0x1087915c753840, (-17));
(0x1deca30e7e1ff6, (-18));
(0x19a6630bad8c27, (-18));
(0x14d0819985aecf, (-18));
(0x1ff6d69ce066c2, (-19));
(0x17345d4204f958, (-19));
(0x1fd177eb87ec4e, (-20));
(0x1492b0863836af, (-20));
(0x190ba49d79e2e7, (-21));
(0x1ca4450c220f1c, (-22));
(0x1eb000d6247de8, (-23));
(0x1eb504ad751246, (-24));
(0x1c9635b1ac9925, (-25));
(0x18a511894a4353, (-26));
(0x13907eec852dd3, (-27));
(0x1c67e00d343379, (-29));
(0x12b1f31aae8118, (-30));
(0x16110983a0f4f7, (-32));
(0x1706c2dcee49aa, (-34));
(0x14d7cd975db85e, (-36));
(0x1fe0c7fd8c9bed, (-39));
(0x13cf04036e6766, (-41));
(0x12cac9b252fca2, (-44));
(0x183fab8b4d4315, (-48));
(0x10000000000000, (-52))];
[(0x1c920d3fc00000, (-19));
(0x12baf27761f58b, (-18));
(0x172c35678e22c1, (-18));
(0x1b19151a132daa, (-18));
(0x1dfdf17a9f6f23, (-18));
(0x1f7309d6193dee, (-18));
(0x1f43d15e8fb8e7, (-18));
(0x1d7abe20b7cd69, (-18));
(0x1a5e03096bad0a, (-18));
(0x165e7e19e7f595, (-18));
(0x11fe63836b3ea7, (-18));
(0x1b6e7492270c16, (-19));
(0x13cc0546d4ecbf, (-19));
(0x1b05d981851dd3, (-20));
(0x116a93d81dcf5a, (-20));
(0x1529716e4196c8, (-21));
(0x182f5d104af577, (-22));
(0x19edd6a488dc26, (-23));
(0x19fed637554690, (-24));
(0x184744c5e65ddb, (-25));
(0x1506949e1dd0a7, (-26));
(0x10ca41aaa3146d, (-27));
(0x188e649615e70d, (-29));
(0x104dc9a8684423, (-30));
(0x13718845627477, (-32));
(0x14887925373a5c, (-34));
(0x12d7abafa943de, (-36));
(0x1d456f0d039519, (-39));
(0x1283437ef3bee4, (-41));
(0x11ea88886804b6, (-44));
(0x17a4a77fcc0e4b, (-48));
(0x10000000000000, (-52))];
[(0x1c920d3fc00000, (-20));
(0x148400e97aa3a0, (-19));
(0x1bc45ac9291f6f, (-19));
(0x11bfb9d266b942, (-18));
(0x15789f0f154e18, (-18));
(0x189ceb037b5ff7, (-18));
(0x1ac3ce7dbd4a86, (-18));
(0x1ba19ae6c8a7a9, (-18));
(0x1b1870128545e4, (-18));
(0x193ea4f320a539, (-18));
(0x165913d4533d28, (-18));
(0x12cb3752eb9a0b, (-18));
(0x1e03fcd11b2406, (-19));
(0x16beb65e88d08d, (-19));
(0x105728f9dae70f, (-19));
(0x163baf188ca7a4, (-20));
(0x1c9a8d05f52b0d, (-21));
(0x115dd59f0bb591, (-21));
(0x13dc3279f9a624, (-22));
(0x15554dc7ab17dd, (-23));
(0x1574ec4fb921a6, (-24));
(0x14216db340ec19, (-25));
(0x118961ec0665f4, (-26));
(0x1c3683fd55c6fe, (-28));
(0x14d02148a07f47, (-29));
(0x1bec6fc14ae009, (-31));
(0x10d9bbf7acca57, (-32));
(0x120a5023483aed, (-34));
(0x10d0a66577ae2c, (-36));
(0x1a963fce59fcb7, (-39));
(0x11274576ad1e99, (-41));
(0x10fa3b41afe8ac, (-44));
(0x16fa6ea162d0f0, (-48));
(0x10000000000000, (-52))];
[(0x17c4cca2c00000, (-21));
(0x12b2197076408f, (-20));
(0x1ba9ccd73a9c83, (-20));
(0x134e3740b88ead, (-19));
(0x197a08911ca8bb, (-19));
(0x1fd8ce943a90aa, (-19));
(0x12e20515ea1f89, (-18));
(0x1544653dfcb902, (-18));
(0x16c4ce7cc54687, (-18));
(0x172f9d853a244b, (-18));
(0x167763efb91b61, (-18));
(0x14b794abf92c88, (-18));
(0x122e08ea09d340, (-18));
(0x1e5ad0a6754e67, (-19));
(0x1818e9b7f6be34, (-19));
(0x122d78c7d1c93c, (-19));
(0x1a08d73ae47c23, (-20));
(0x11ad75228aac47, (-20));
(0x16ba7207d6dd80, (-21));
(0x1b9dc3f0488a67, (-22));
(0x1fa46c31f4e72b, (-23));
(0x110ca2f5c9ead5, (-23));
(0x1139ddfe8d9c1e, (-24));
(0x1041c4db3b3a03, (-25));
(0x1c8820e6b6773e, (-27));
(0x17272ba373bc97, (-28));
(0x1141da1e2e9303, (-29));
(0x176e68738cf0eb, (-31));
(0x1cab5b0916c993, (-33));
(0x1f2d08e0a81927, (-35));
(0x1d93796bbc63dc, (-37));
(0x17da39ea176f58, (-39));
(0x1f7a20fa05fb35, (-42));
(0x1ff3bda6d9c950, (-45));
(0x163fa3f3c02961, (-48));
(0x10000000000000, (-52))];
[(0x106ab6da800000, (-22));
(0x1c523eadf4f52a, (-22));
(0x16e9bca4d70374, (-21));
(0x117348f9c7dca3, (-20));
(0x19182a35e41af0, (-20));
(0x111350459dfa89, (-19));
(0x160896889032c1, (-19));
(0x1affe0dd568e3f, (-19));
(0x1f750daaaa49e9, (-19));
(0x1170c8e7a735c7, (-18));
(0x126afdc7b2b00c, (-18));
(0x12885e56628ff5, (-18));
(0x11c5f72380a9da, (-18));
(0x103f148caade1b, (-18));
(0x1c4e528810dcfa, (-19));
(0x177e0527a6808e, (-19));
(0x1290a8d9c7c82d, (-19));
(0x1beb3ed56e2656, (-20));
(0x13f46f2d6c4bfa, (-20));
(0x1b14e006c9d4d4, (-21));
(0x116bb1816441f5, (-21));
(0x153535aec4146e, (-22));
(0x1860bc2a8fed5f, (-23));
(0x1a63cb38e3dd36, (-24));
(0x1ad22763a76a10, (-25));
(0x197f5671df599d, (-26));
(0x169258f2bc2d06, (-27));
(0x12819e55776d99, (-28));
(0x1beb4e7ee10d12, (-30));
(0x13371d20dcec87, (-31));
(0x17e15c8fa70f70, (-33));
(0x1a6e40586a504b, (-35));
(0x199432b7b5f26a, (-37));
(0x1518dcdf09dbb4, (-39));
(0x1c8dd4394d758f, (-42));
(0x1dd2de0d004ae5, (-45));
(0x1572969b8b5cd8, (-48));
(0x10000000000000, (-52))];
[(0x12be3d97000000, (-24));
(0x11c551d0ecd090, (-23));
(0x1f7c4c6de7f4d1, (-23));
(0x1a2e3e8daec21a, (-22));
(0x1482330e4ca29d, (-21));
(0x1e5c17977c2d5e, (-21));
(0x1548c43b864221, (-20));
(0x1c529c507df5f3, (-20));
(0x11e9b05451f2df, (-19));
(0x1590e52f07ebf1, (-19));
(0x18bce6b373d5bc, (-19));
(0x1b0ea5984f113d, (-19));
(0x1c3bf1e0e98a0a, (-19));
(0x1c1e61eff494b3, (-19));
(0x1abb2c19f51b26, (-19));
(0x1841c911c6fe90, (-19));
(0x1501d4f9837720, (-19));
(0x115b14aeb58539, (-19));
(0x1b57dd1d67e960, (-20));
(0x14853fc87c6c1a, (-20));
(0x1d50a442fae393, (-21));
(0x13e7afad6fef87, (-21));
(0x19a85fc3949c35, (-22));
(0x1f560f8a9c9117, (-23));
(0x121789f5fc13d8, (-23));
(0x13b36d25b2d34c, (-24));
(0x142b5db669d591, (-25));
(0x1357cb5676b759, (-26));
(0x114d04fb0919de, (-27));
(0x1cb5eb79fc539d, (-29));
(0x15f49fc9c2c816, (-30));
(0x1eb25493aaa847, (-32));
(0x136a0b65add882, (-33));
(0x15eb85e7b8957a, (-35));
(0x15b1f7aba4cbe1, (-37));
(0x125a27e84a4f4c, (-39));
(0x198ec0705f9f90, (-42));
(0x1b91cbb254e15e, (-45));
(0x1491248a282eec, (-48));
(0x10000000000000, (-52))];
[(0x118df640000000, (-26));
(0x125d4be36ae264, (-25));
(0x11dbb2752eb2a7, (-24));
(0x103c8d21558f5b, (-23));
(0x1bbb46fe04af3f, (-23));
(0x1653b174a226c9, (-22));
(0x10ff7713d0a1f0, (-21));
(0x1888cc86eae63c, (-21));
(0x10d186c095cd69, (-20));
(0x15f04c7fad9c46, (-20));
(0x1b43ce9f03bf88, (-20));
(0x1028a23bdbc4b4, (-19));
(0x12487b9dbbb674, (-19));
(0x13c281f4bd8c26, (-19));
(0x1468677b61ea63, (-19));
(0x14259fec902bac, (-19));
(0x130375342785dd, (-19));
(0x1126fb3c149d16, (-19));
(0x1d92fa5bdcaa1d, (-20));
(0x185af18407b14e, (-20));
(0x132602eae51daa, (-20));
(0x1cb9046057ac7f, (-21));
(0x1487820365a03e, (-21));
(0x1beebd6ea155f4, (-22));
(0x120f84d820ff60, (-22));
(0x1628741a4c58a1, (-23));
(0x19bcb460cb691e, (-24));
(0x1c3b34fc96e182, (-25));
(0x1d283a2e7fbbc6, (-26));
(0x1c408ef8d7fe0f, (-27));
(0x1992bf232ea542, (-28));
(0x1583108349f79e, (-29));
(0x10b58883892095, (-30));
(0x17c7095a792d33, (-32));
(0x1eae7f011fd7e1, (-34));
(0x11b6cba2377bcc, (-35));
(0x11fb3bde76ad13, (-37));
(0x1f4d339c8a0511, (-40));
(0x1682aa823b26fd, (-42));
(0x193074e115a993, (-45));
(0x13988e1409212e, (-48));
(0x10000000000000, (-52))];
[(0x1aac0900000000, (-29));
(0x1ef69a8f676726, (-28));
(0x109747895f7679, (-26));
(0x10897364f3cca7, (-25));
(0x1ed76d270685a4, (-25));
(0x1b0806243d381e, (-24));
(0x1659f3cfb71865, (-23));
(0x117d3c9e968083, (-22));
(0x19f6f909c5128d, (-22));
(0x12528e85bee028, (-21));
(0x189ff54ab451c7, (-21));
(0x1f8f3d635bd878, (-21));
(0x134eade4cf1726, (-20));
(0x1692eac4948cc6, (-20));
(0x193d0693da8d36, (-20));
(0x1aff3cb6e5a4d5, (-20));
(0x1ba39894a81887, (-20));
(0x1b165a3351e09b, (-20));
(0x1969c4e164ca6d, (-20));
(0x16d25a6401e5bc, (-20));
(0x139c8e1d585ab2, (-20));
(0x101ea8fa66a732, (-20));
(0x1954c064ea7474, (-21));
(0x1302ab1b76fea9, (-21));
(0x1b3a2feee692e1, (-22));
(0x12952760c27556, (-22));
(0x1823b95dc3bf19, (-23));
(0x1dca88451bb2c9, (-24));
(0x116da880a2553c, (-24));
(0x13491f4d44717b, (-25));
(0x141fe10f58236a, (-26));
(0x13bbfa12c0cccf, (-27));
(0x121c030c336c2e, (-28));
(0x1ef21a3a9072ff, (-30));
(0x1876f8cebe0b22, (-31));
(0x11c1da6df0fa27, (-32));
(0x176ef872675560, (-34));
(0x1bc06c7685fa61, (-36));
(0x1cfc541a928967, (-38));
(0x1a0e6119c6a60d, (-40));
(0x137020ecf56642, (-42));
(0x16aebe60e15017, (-45));
(0x12852fb49899cc, (-48));
(0x10000000000000, (-52))];
[(0x102a3400000000, (-31));
(0x14ffaefd073dae, (-30));
(0x18f1b63a4807c8, (-29));
(0x1b5e31af378385, (-28));
(0x1bf1b586375762, (-27));
(0x1ab5a3cafa8c4e, (-26));
(0x180294c2d68113, (-25));
(0x14602a127e586d, (-24));
(0x105fc8def43536, (-23));
(0x18fc0d74d700bb, (-23));
(0x1222727a8ba58d, (-22));
(0x1916cf2f7cfeda, (-22));
(0x1090804bc6307d, (-21));
(0x14e69b75c9714f, (-21));
(0x1939a9c7a79650, (-21));
(0x1d248cc2c34d1a, (-21));
(0x101fcc43458920, (-20));
(0x1118e3d24d4302, (-20));
(0x1160639c4dab3b, (-20));
(0x10edf860132c61, (-20));
(0x1f9f66e371aa39, (-21));
(0x1c4e8c11d4ab45, (-21));
(0x18474a8db0fb1e, (-21));
(0x13f16af463a9b4, (-21));
(0x1f5bebbdffeaff, (-22));
(0x17945bf5b906e3, (-22));
(0x10f0a602ec2c47, (-22));
(0x173a7138f312ac, (-23));
(0x1e5a5188b6b998, (-24));
(0x12dde2fe62a133, (-24));
(0x1644e5d2b53272, (-25));
(0x18e5cc257a309e, (-26));
(0x1a4afc2d04f5b2, (-27));
(0x1a2381bdda6d4a, (-28));
(0x185d09c4fee737, (-29));
(0x152fe48cbed41d, (-30));
(0x11163fd36b58eb, (-31));
(0x195e13787cd313, (-33));
(0x112ab8f09281ab, (-34));
(0x14eb292d04a679, (-36));
(0x1690b7ca048e23, (-38));
(0x150ad136c791c9, (-40));
(0x105ea80185029b, (-42));
(0x140c7c1a6f1961, (-45));
(0x11520cd1372fea, (-48));
(0x10000000000000, (-52))];
[(0x1e816000000000, (-35));
(0x16723e6ee7467b, (-33));
(0x1dce7833912374, (-32));
(0x121b1316d46228, (-30));
(0x1453b7eecc7456, (-29));
(0x153fca08c105a0, (-28));
(0x14ce42d4d78f4b, (-27));
(0x132ba6c54de921, (-26));
(0x10af8ff300d89c, (-25));
(0x1b860baafaeffe, (-25));
(0x1590e80b4710a7, (-24));
(0x10168d51a82db3, (-23));
(0x16e4cd6242b146, (-23));
(0x1f1e83b5b20aee, (-23));
(0x143a52f25919c3, (-22));
(0x192d09c9f9f201, (-22));
(0x1e062816b279e4, (-22));
(0x112a605e0843bb, (-21));
(0x12d43abe05f7a0, (-21));
(0x13d1ef218e2073, (-21));
(0x140683e0185bda, (-21));
(0x136c0bd4fb00e2, (-21));
(0x1214b91ed9beca, (-21));
(0x10276d3ea79b34, (-21));
(0x1bb14d8ffac0ec, (-22));
(0x16c312cd94b5e5, (-22));
(0x11ee23ad805c8c, (-22));
(0x1b0d12813d35bd, (-23));
(0x1385bd8d1e3798, (-23));
(0x1aed72498f6a63, (-24));
(0x11b8e378715eca, (-24));
(0x1639c095c9efd7, (-25));
(0x1a816cf020a295, (-26));
(0x1dfd83dfe5f4c6, (-27));
(0x100dccbf53b777, (-27));
(0x1035e5774d9c27, (-28));
(0x1ec1dfed518c2d, (-30));
(0x1b491db2a5c263, (-31));
(0x16813a013f5aad, (-32));
(0x1122216dafc2a5, (-33));
(0x17dc37f8d3f95b, (-35));
(0x1e073b78d38677, (-37));
(0x10cd0756006c10, (-38));
(0x105676a0a8b144, (-40));
(0x1aadef221667a5, (-43));
(0x1149619f772bb0, (-45));
(0x1feffbfdfebf1f, (-49));
(0x10000000000000, (-52))];
[(0x15950000000000, (-38));
(0x1254d9af5b269c, (-36));
(0x1b8d1082a6028d, (-35));
(0x12b0b446b0b59e, (-33));
(0x17360b49cfee7b, (-32));
(0x1aa6a5209f8c63, (-31));
(0x1c8206159a4a6a, (-30));
(0x1c93d9b54a3714, (-29));
(0x1af94892ad8282, (-28));
(0x181088e62a0acd, (-27));
(0x145b41d4c33cc5, (-26));
(0x105eb7d864c200, (-25));
(0x19157872394320, (-25));
(0x1257df2ed69fb6, (-24));
(0x19a569699fc13e, (-24));
(0x11291bdf91a537, (-23));
(0x16016f23ff8250, (-23));
(0x1b10353ae3aa1d, (-23));
(0x1ff1a025f305f9, (-23));
(0x121a8e4d0349fe, (-22));
(0x13b6b62c148597, (-22));
(0x14a11e38e6c714, (-22));
(0x14bfb1b07d6d9e, (-22));
(0x140f1b74f9503f, (-22));
(0x12a35b993f1a1e, (-22));
(0x10a42411f85751, (-22));
(0x1c8bc2bf681f3f, (-23));
(0x17822cf2d740ee, (-23));
(0x1293f187222e5b, (-23));
(0x1c27d8009ba881, (-24));
(0x1470902566cf6a, (-24));
(0x1c66371ae4b84e, (-25));
(0x12dafc9a758c3b, (-25));
(0x17e44cc7ff778a, (-26));
(0x1cd5c7a521cd10, (-27));
(0x1089bdb97db7ba, (-27));
(0x11fbe58a46a425, (-28));
(0x127b9c1e4523fc, (-29));
(0x11e3204c9b0d6d, (-30));
(0x103a7ac51718b8, (-31));
(0x1b74a16ad4e152, (-33));
(0x1581dfb670d4ec, (-34));
(0x1eef0f61317c07, (-36));
(0x143131703cb709, (-37));
(0x179008d3db093b, (-39));
(0x180c6b5eb5ce1e, (-41));
(0x14c6a57d607f2f, (-43));
(0x1cc9bb91eb1cc9, (-46));
(0x1cd82b446159f3, (-49));
(0x10000000000000, (-52))];
[(0x15880000000000, (-42));
(0x15c5686e5ead42, (-40));
(0x12de94309bd1d9, (-38));
(0x1cf35032c25829, (-37));
(0x140eb55d6eaa84, (-35));
(0x197355268a7fbf, (-34));
(0x1ddf22d338cc30, (-33));
(0x1056ef749adc2e, (-31));
(0x10c2ab07773e5f, (-30));
(0x10324cf15fa47b, (-29));
(0x1d9aac05a9425a, (-29));
(0x19ab252e76bf1e, (-28));
(0x152bca0c21c107, (-27));
(0x10a5aa9a7db383, (-26));
(0x19015f37bfdfd5, (-26));
(0x11f742bc7c3cf3, (-25));
(0x18badb49ecf228, (-25));
(0x1052860c8e95ed, (-24));
(0x14aea103e1c8d7, (-24));
(0x192cbef5e4ff8b, (-24));
(0x1d74957f9105f3, (-24));
(0x109270d883f3e0, (-23));
(0x11f093aee884d4, (-23));
(0x12b02300387866, (-23));
(0x12bc63576a59b5, (-23));
(0x12140a7d85e08a, (-23));
(0x10c977748e99a5, (-23));
(0x1dfef246975964, (-24));
(0x19c6cf2c71334f, (-24));
(0x154bd54d27d77c, (-24));
(0x10e7f9507e5adb, (-24));
(0x19c602cf9ee535, (-25));
(0x12d8f1882d7ef9, (-25));
(0x1a6ae32dd51a5a, (-26));
(0x11b8aecbce01dc, (-26));
(0x16b98b3d033f63, (-27));
(0x1bce0f28ced7f5, (-28));
(0x1032a34018cb08, (-28));
(0x11ed7ca65ffc66, (-29));
(0x12cbb71fffff0a, (-30));
(0x129a5cf42ed015, (-31));
(0x114f620869c5d7, (-32));
(0x1e220c2c3adea9, (-34));
(0x1860f8c50a8945, (-35));
(0x122fc9f7c4da5b, (-36));
(0x18c26bf65b2020, (-38));
(0x1e52f312afe9e9, (-40));
(0x105f99470bf8e9, (-41));
(0x1e4010ecf0afb6, (-44));
(0x16bb6d412f5e63, (-46));
(0x193813088978c4, (-49));
(0x10000000000000, (-52))];
[(0x1b000000000000, (-47));
(0x113656564ed79d, (-44));
(0x11bec9dfc88182, (-42));
(0x1f6022bda14ac8, (-41));
(0x188f65ea91f55e, (-39));
(0x115ec9b80e34e5, (-37));
(0x16827edc922147, (-36));
(0x1afe8dc6d5c0fb, (-35));
(0x1e300f73fc0b75, (-34));
(0x1fab4297c47770, (-33));
(0x1f50ac622d2813, (-32));
(0x1d4cf09fc22d55, (-31));
(0x1a066004ec4d71, (-30));
(0x16006903413619, (-29));
(0x11be69fc78d35b, (-28));
(0x1b5aa1eb012d83, (-28));
(0x142f3c084a9259, (-27));
(0x1c8e3e575f2651, (-27));
(0x1362cc8c1189ea, (-26));
(0x19495749de78c6, (-26));
(0x1fb6464448393a, (-26));
(0x1321c0c230476b, (-25));
(0x1638de934af71d, (-25));
(0x18dba944c5edd0, (-25));
(0x1ac9af0ab32541, (-25));
(0x1bd0ca1f79fd29, (-25));
(0x1bd555d06e4e13, (-25));
(0x1ad6dbe46a5d92, (-25));
(0x18f027f8e8f4a0, (-25));
(0x1652bc88ea9f0c, (-25));
(0x133eb498572bb9, (-25));
(0x1ff1bff3bbc33a, (-26));
(0x19825658405f3a, (-26));
(0x13963a7577e71c, (-26));
(0x1ce61a9d908a07, (-27));
(0x14768293d99fcc, (-27));
(0x1bc8ab5bede017, (-28));
(0x120f50a91a4d0d, (-28));
(0x1671bfeec5e3b4, (-29));
(0x1a9d9efab53d09, (-30));
(0x1e0d0c4f5f5023, (-31));
(0x101c53d24923c0, (-31));
(0x105a92357254d6, (-32));
(0x1f50ac622d2813, (-34));
(0x1c267415206a2a, (-35));
(0x17a00c17fce793, (-36));
(0x12610ed3a1dffd, (-37));
(0x1a42e956aa7c28, (-39));
(0x110409854762d6, (-40));
(0x13a5eb220e5de5, (-42));
(0x13afc57c00cf8c, (-44));
(0x106157e242edb3, (-46));
(0x14c8dc2e42397f, (-49));
(0x10000000000000, (-52))];
[(0x10000000000000, (-52));
(0x1daa2fefaae1d7, (-50));
(0x134491be50521a, (-47));
(0x143f1c6cc855e4, (-45));
(0x123ffe3f1f7a37, (-43));
(0x1d2493249245ea, (-42));
(0x150834c0fa519c, (-40));
(0x1bd2a29821d814, (-39));
(0x1109b496c3d1da, (-37));
(0x1377b96c71b1bf, (-36));
(0x14e072ec1e1ab7, (-35));
(0x151cd70fd84fa0, (-34));
(0x1436bd8b92c475, (-33));
(0x1261aa91678ed2, (-32));
(0x1fd673fd36ea2c, (-32));
(0x1a517d20abba9d, (-31));
(0x14ce73db332489, (-30));
(0x1f83a0f78e18cc, (-30));
(0x16e4ff15c27199, (-29));
(0x1ff2e9635fc249, (-29));
(0x156e94abacd7a2, (-28));
(0x1bab2531510c09, (-28));
(0x1132c0a3c2ab14, (-27));
(0x1499b91de0bfda, (-27));
(0x17c992279b8afb, (-27));
(0x1a7d0f26e3e781, (-27));
(0x1c7406a9262670, (-27));
(0x1d7cfc59cce1d1, (-27));
(0x1d7cfc59cce1d1, (-27));
(0x1c7406a9262670, (-27));
(0x1a7d0f26e3e781, (-27));
(0x17c992279b8afb, (-27));
(0x1499b91de0bfda, (-27));
(0x1132c0a3c2ab14, (-27));
(0x1bab2531510c09, (-28));
(0x156e94abacd7a2, (-28));
(0x1ff2e9635fc249, (-29));
(0x16e4ff15c27199, (-29));
(0x1f83a0f78e18cc, (-30));
(0x14ce73db332489, (-30));
(0x1a517d20abba9d, (-31));
(0x1fd673fd36ea2c, (-32));
(0x1261aa91678ed2, (-32));
(0x1436bd8b92c475, (-33));
(0x151cd70fd84fa0, (-34));
(0x14e072ec1e1ab7, (-35));
(0x1377b96c71b1bf, (-36));
(0x1109b496c3d1da, (-37));
(0x1bd2a29821d814, (-39));
(0x150834c0fa519c, (-40));
(0x1d2493249245ea, (-42));
(0x123ffe3f1f7a37, (-43));
(0x143f1c6cc855e4, (-45));
(0x134491be50521a, (-47));
(0x1daa2fefaae1d7, (-50));
(0x10000000000000, (-52))]];
   [[(0x10000000000000, (-52))];
[(0x19600000000000, (-44));
(0x1c7ee08a0e6d4c, (-48));
(0x10000000000000, (-52))];
[(0x1ac34000000000, (-38));
(0x1e174ef200b99f, (-41));
(0x1957febcc3ad73, (-44));
(0x1c75e34235a6bc, (-48));
(0x10000000000000, (-52))];
[(0x16783200000000, (-33));
(0x12feb2d21a17fd, (-35));
(0x1ab24ff93d2377, (-38));
(0x1dfacb8c698ca2, (-41));
(0x193ffaee416461, (-44));
(0x1c63e02881cc54, (-48));
(0x10000000000000, (-52))];
[(0x140fe380000000, (-29));
(0x16b2984055e920, (-31));
(0x1662bec2f09670, (-33));
(0x12e096b1259d2c, (-35));
(0x1a7f9fe4c0d25f, (-38));
(0x1dc1dfac0de4d8, (-41));
(0x1917f485e33bc2, (-44));
(0x1c48c6001f0abf, (-48));
(0x10000000000000, (-52))];
[(0x16117a40000000, (-26));
(0x1f5dd15641acb6, (-28));
(0x13f6250b82d07f, (-29));
(0x167fe8d1940eef, (-31));
(0x1622b665186680, (-33));
(0x12a4b3f473e1dd, (-35));
(0x1a2b8fc1eced34, (-38));
(0x1d6cc150dbc8fd, (-41));
(0x18dfeb6abd9840, (-44));
(0x1c247a85fe81fa, (-48));
(0x10000000000000, (-52))];
[(0x10579bfc000000, (-23));
(0x1c0d112a79dd5c, (-25));
(0x15edb2c6e4afc3, (-26));
(0x1f02f7e4fe8100, (-28));
(0x13a97cfa1ebd43, (-29));
(0x161b7adbb4c438, (-31));
(0x15b90bf276e426, (-33));
(0x124bb51fc1bcdf, (-35));
(0x19b6bf8fafe243, (-38));
(0x1cfbc1e584e27e, (-41));
(0x1897df7898d74f, (-44));
(0x1bf6d9ef178c07, (-48));
(0x10000000000000, (-52))];
[(0x1148f8ad000000, (-21));
(0x11710466f4798a, (-22));
(0x103762cb2c194c, (-23));
(0x1ba8a0aaa0ed78, (-25));
(0x15836f8ed032f9, (-26));
(0x1e4fa56360a8c7, (-28));
(0x132ba18dc46fa7, (-29));
(0x15872bb9be21cd, (-31));
(0x15275129ac9e84, (-33));
(0x11d698a6c4f2ec, (-35));
(0x19220f4c749e96, (-38));
(0x1c6f4ec2c3fa73, (-41));
(0x183fd07e7fa749, (-44));
(0x1bbfb6325af96a, (-48));
(0x10000000000000, (-52))];
[(0x1b395476e00000, (-20));
(0x1faf1b45fc78b2, (-21));
(0x11208f520bc589, (-21));
(0x112629c2302e84, (-22));
(0x1fafe0c3f90624, (-24));
(0x1ae3281ef0eff4, (-25));
(0x14d5dff3585394, (-26));
(0x1d4887c0d67683, (-28));
(0x127f612764548e, (-29));
(0x14c5bc5b646d4a, (-31));
(0x146fb17becb410, (-33));
(0x1146af54679cd8, (-35));
(0x186e9ef609e4a4, (-38));
(0x1bc7f1e3c3f9c7, (-41));
(0x17d7be3cb5c03c, (-44));
(0x1b7ed6159fadc7, (-48));
(0x10000000000000, (-52))];
[(0x10757bd9700000, (-18));
(0x15c81119eb1524, (-19));
(0x1aef2f9f22c654, (-20));
(0x1f0f87378b69c7, (-21));
(0x10a930e64b367c, (-21));
(0x109398500b3002, (-22));
(0x1e79c122573ca4, (-24));
(0x19c35267f06cca, (-25));
(0x13ea311883689b, (-26));
(0x1bf4755344e4cf, (-28));
(0x11a8906b7d58f9, (-29));
(0x13dac40fa5878b, (-31));
(0x1394eb0ce6da30, (-33));
(0x109d9a2426c75d, (-35));
(0x179dce897e76a2, (-38));
(0x1b0652d0a7f588, (-41));
(0x175fa861ece6f5, (-44));
(0x1b33f3f1490dee, (-48));
(0x10000000000000, (-52))];
[(0x1f459e83880000, (-18));
(0x1746c4130f3ac6, (-18));
(0x1041ec596ada36, (-18));
(0x15493c9535a747, (-19));
(0x1a14d02b62dc3a, (-20));
(0x1dd8652e6134dd, (-21));
(0x1fd0b04e0c4d60, (-22));
(0x1f7ed49815419e, (-23));
(0x1cd807407b692e, (-24));
(0x1852c2694ecc89, (-25));
(0x12c75c769b18a8, (-26));
(0x1a5c365156a8b2, (-28));
(0x10abf1b21768ee, (-29));
(0x12ca9f1699923c, (-31));
(0x129a45b2a81c14, (-33));
(0x1fba8f110d7d49, (-36));
(0x16b13e02ee1edc, (-38));
(0x1a2b37c5fcbd2a, (-41));
(0x16d78e877aaaef, (-44));
(0x1adebc19b71702, (-48));
(0x10000000000000, (-52))];
[(0x17c230f2e40000, (-17));
(0x13ba43eb3a8d35, (-17));
(0x1ed5f597925169, (-18));
(0x16abc11c294f95, (-18));
(0x1f550f25ae7c23, (-19));
(0x14530f727f3340, (-19));
(0x18b61372bca387, (-20));
(0x1c1931bca787fa, (-21));
(0x1dcd88e12c147c, (-22));
(0x1d64b06a85bbe9, (-23));
(0x1ada280157fd5b, (-24));
(0x169da77bdfbd11, (-25));
(0x1175e50c393707, (-26));
(0x188a3e5fc0c83a, (-28));
(0x1f1e2c6452183d, (-30));
(0x119a5922ddb4b2, (-31));
(0x118387f56f80cd, (-33));
(0x1e0fe02fef2ae4, (-36));
(0x15aacd5d398cf7, (-38));
(0x19378722149a8b, (-41));
(0x163f702c34e466, (-44));
(0x1a7ecad724e985, (-48));
(0x10000000000000, (-52))];
[(0x1d448dec240000, (-17));
(0x1aefd50f827666, (-17));
(0x176220a9b774d2, (-17));
(0x13252c57b92b7b, (-17));
(0x1d8f2b7afa3aa1, (-18));
(0x15804e5e778569, (-18));
(0x1d71bbee8958d2, (-19));
(0x12f3e0f814565c, (-19));
(0x16e5bc76a5541b, (-20));
(0x19e7cc25ae027f, (-21));
(0x1b5fda625f25ef, (-22));
(0x1aee76c9a2baf1, (-23));
(0x1892a7962086fd, (-24));
(0x14b23573dba293, (-25));
(0x1fff0b281c098d, (-27));
(0x168a5816684339, (-28));
(0x1cb072f0ce3c9d, (-30));
(0x104f93fdf7abec, (-31));
(0x1054ea0f72657a, (-33));
(0x1c40252f568935, (-36));
(0x148c9c919fc928, (-38));
(0x182c492423a0a7, (-41));
(0x15974cad705597, (-44));
(0x1a13a9cb996650, (-48));
(0x10000000000000, (-52))];
[(0x1d89b767a00000, (-17));
(0x1dfc1efd4f962b, (-17));
(0x1cbf2526b6e5dc, (-17));
(0x1a0a12a3adec04, (-17));
(0x1649f7ab0c4d5e, (-17));
(0x12069f2cb127fa, (-17));
(0x1b88f381a3f44a, (-18));
(0x13d88807861934, (-18));
(0x1af7d180723d6f, (-19));
(0x113fb272c593dd, (-19));
(0x14bc0722bae0b6, (-20));
(0x175ef42ee37ad7, (-21));
(0x18a2964b90371b, (-22));
(0x1834e6216e65fe, (-23));
(0x16162e78b6430f, (-24));
(0x12a00646b73f91, (-25));
(0x1cdda561bd72ed, (-27));
(0x146944d0f0c99a, (-28));
(0x1a1c2fb2fa2372, (-30));
(0x1de0d51d5c7ccc, (-32));
(0x1e260dd91480a0, (-34));
(0x1a50deb35978c3, (-36));
(0x13590b972ae3f6, (-38));
(0x170aaa0ca7437a, (-41));
(0x14df233d5b3b09, (-44));
(0x199ccc999fff00, (-48));
(0x10000000000000, (-52))];
[(0x189d6e2bb00000, (-17));
(0x1b758a33971ecb, (-17));
(0x1cf259b110b850, (-17));
(0x1cdc85e77f92d4, (-17));
(0x1b3b8bbab4e686, (-17));
(0x1852e5cdc772ad, (-17));
(0x1490d2787a975f, (-17));
(0x10748dd7696700, (-17));
(0x18e8042998f266, (-18));
(0x11d01e15ba26fa, (-18));
(0x180d65370731f2, (-19));
(0x1e9d15b7f4b358, (-20));
(0x1254d798b6cde5, (-20));
(0x149c782584a50d, (-21));
(0x15b3087eb6f4df, (-22));
(0x15526aa265e889, (-23));
(0x137a84f746fc21, (-24));
(0x10776c78150193, (-25));
(0x199da90a75374c, (-27));
(0x123453858bcd65, (-28));
(0x176f815f56879a, (-30));
(0x1b06a11987ef6e, (-32));
(0x1b859653847cf4, (-34));
(0x184805c1ba20de, (-36));
(0x1212ba61d932a9, (-38));
(0x15d3fcb3957744, (-41));
(0x1416f2d5861d2e, (-44));
(0x19198c8b8307c8, (-48));
(0x10000000000000, (-52))];
[(0x11084cd2500000, (-17));
(0x14d3607e7a6fb7, (-17));
(0x180fce9d9f9833, (-17));
(0x1a4e0070eddf25, (-17));
(0x1b3c675f854b15, (-17));
(0x1aba11272d4990, (-17));
(0x18dde2598ac636, (-17));
(0x15f0596f756cb3, (-17));
(0x125a16443dbe85, (-17));
(0x1d198574891e60, (-18));
(0x15da47f640a970, (-18));
(0x1f0f5d6b857f31, (-19));
(0x14dd57422729e2, (-19));
(0x1a7510c1dcf79c, (-20));
(0x1f9b5ce7c355ef, (-21));
(0x11bf3800520492, (-21));
(0x12af125914e359, (-22));
(0x1261ae22a4a2e0, (-23));
(0x10d5836f8f51ba, (-24));
(0x1c917c9e71ecf7, (-26));
(0x16553732c7f21b, (-27));
(0x1ff1e3765e17d4, (-29));
(0x14b8caa78ee579, (-30));
(0x181dde76030ce7, (-32));
(0x18d2c4296be811, (-34));
(0x162bff745d158e, (-36));
(0x10bc88e15e68da, (-38));
(0x1489bdaf8a0a2c, (-41));
(0x133eba23c59630, (-44));
(0x188922de324cbe, (-48));
(0x10000000000000, (-52))];
[(0x13a4691bd40000, (-18));
(0x1a47f2f6849646, (-18));
(0x109a4430607363, (-17));
(0x13d80a3a762c0d, (-17));
(0x1677ecc58b68ea, (-17));
(0x18202290255b74, (-17));
(0x1895c947b5f5d9, (-17));
(0x17c9fe02c304c9, (-17));
(0x15dcd06d6b08a3, (-17));
(0x13154cc7975ea0, (-17));
(0x1fa27bc50b86a0, (-18));
(0x18e339d56372c4, (-18));
(0x1292398936f5dd, (-18));
(0x1a437d36f7bf85, (-19));
(0x1193abd80d97f1, (-19));
(0x163baf188ca7a4, (-20));
(0x1a871fd2cfea10, (-21));
(0x1dca4bb6f67936, (-22));
(0x1f66d2527c54d0, (-23));
(0x1ef85a00151c75, (-24));
(0x1c780c6a8a47e6, (-25));
(0x184744c5e65ddb, (-26));
(0x1319aa89d168be, (-27));
(0x1b887417a24be4, (-29));
(0x12064bc331c0a3, (-30));
(0x1533ff1eaa2534, (-32));
(0x16184155535cad, (-34));
(0x14038eec91085b, (-36));
(0x1eb32dfe7f4ef6, (-39));
(0x132d97327fa524, (-41));
(0x1256776e804661, (-44));
(0x17eaa126f15283, (-48));
(0x10000000000000, (-52))];
[(0x12e82e6a300000, (-19));
(0x1ba9ccd73a9c83, (-19));
(0x1315bb4436f003, (-18));
(0x18e414e4ca61f0, (-18));
(0x1ebdf6cc6d8760, (-18));
(0x12010e9df20cbc, (-17));
(0x1405ba9704d8a0, (-17));
(0x1528d42857e627, (-17));
(0x1543063643ed2d, (-17));
(0x1452540de3f46b, (-17));
(0x127a2bdadd38f9, (-17));
(0x1ff63fff5ec902, (-18));
(0x1a49b925c75b22, (-18));
(0x148cdddce20c05, (-18));
(0x1e83fd08e62e81, (-19));
(0x157f4fa5727576, (-19));
(0x1cb3eeb23b2c7c, (-20));
(0x122183865a2b1e, (-20));
(0x15a218ca6e2ce1, (-21));
(0x1852d82b7dc7a2, (-22));
(0x19b3efebe88380, (-23));
(0x1971ce34c940f4, (-24));
(0x1781e871ebbc07, (-25));
(0x142ccc7ea4cfe7, (-26));
(0x1ffd90198d805d, (-28));
(0x174507cbbe655d, (-29));
(0x1ecb73de1520e7, (-31));
(0x12564482b282a1, (-32));
(0x1360dd2e6c5b43, (-34));
(0x11d5c552b6b18c, (-36));
(0x1bda8937c499bb, (-39));
(0x11c165cddb45ff, (-41));
(0x115e286b9b1174, (-44));
(0x173ce704fb7b23, (-48));
(0x10000000000000, (-52))];
[(0x1e5f057aa00000, (-21));
(0x184d8db20562a8, (-20));
(0x124d53fe569670, (-19));
(0x1a04b746760850, (-19));
(0x117f4373c972bc, (-18));
(0x164ea8fde9e0d4, (-18));
(0x1affe0dd568e3f, (-18));
(0x1f0fc0ca1b4032, (-18));
(0x10ffbbe1771732, (-17));
(0x11b6bbc38a5c87, (-17));
(0x1194e73590aacc, (-17));
(0x10a01a578eec4e, (-17));
(0x1df4f710518f89, (-18));
(0x19b5cc95fff607, (-18));
(0x15031a6731602b, (-18));
(0x1057f5d88b1546, (-18));
(0x182db23508f1e2, (-19));
(0x10fdacd0b7d853, (-19));
(0x16a8759fb3e966, (-20));
(0x1ca006245cd29a, (-21));
(0x11192b362dd6e9, (-21));
(0x1345bbf700a9f3, (-22));
(0x147103f185ad78, (-23));
(0x145684da1fb129, (-24));
(0x12e8cd9d246da9, (-25));
(0x105acf7cadd5e6, (-26));
(0x1a2c011b63e85a, (-28));
(0x133df0ef067f78, (-29));
(0x19c7af05ef3aab, (-31));
(0x1f22d929499251, (-33));
(0x10b75a648e8ace, (-34));
(0x1f53df3f43469a, (-37));
(0x18f66313a9f0f5, (-39));
(0x10473e62b0716c, (-41));
(0x1055ca01daed86, (-44));
(0x167e93ddbc0e72, (-48));
(0x10000000000000, (-52))];
[(0x144e180e400000, (-22));
(0x11cba23af0de24, (-21));
(0x1d4556448dae20, (-21));
(0x16ac5059b74548, (-20));
(0x109715af8459e6, (-19));
(0x16fd572b51286d, (-19));
(0x1e39c294b533db, (-19));
(0x12e1bd8afea3f7, (-18));
(0x16725478765b35, (-18));
(0x196a6ffc94fe85, (-18));
(0x1b6e30fab27f31, (-18));
(0x1c3bf1e0e98a0a, (-18));
(0x1bb9b37025100d, (-18));
(0x19fa5e38c083f1, (-18));
(0x17396aba1102ff, (-18));
(0x13ce44c0fe80c6, (-18));
(0x101b0125b19710, (-18));
(0x18f5f8dc05730d, (-19));
(0x126aef770ba1bd, (-19));
(0x19da78c98f819d, (-20));
(0x113cfe65554a74, (-20));
(0x15ce0b6ade81ee, (-21));
(0x1a1d0cf38278e8, (-22));
(0x1d8b457865cb81, (-23));
(0x1f7e797039349d, (-24));
(0x1f88c721787398, (-25));
(0x1d8bfd9fa1057c, (-26));
(0x19ca647348f477, (-27));
(0x14db97cc790ae1, (-28));
(0x1f0cc34f9d69bb, (-30));
(0x15181efbef775e, (-31));
(0x19e2b9dce7cb58, (-33));
(0x1c4c71f3f0da33, (-35));
(0x1b0f03b3b8589d, (-37));
(0x160e7b0bfd5bb9, (-39));
(0x1d82eb3ed3efdc, (-42));
(0x1e7aafccab8486, (-45));
(0x15adf29f948cfa, (-48));
(0x10000000000000, (-52))];
[(0x167de382000000, (-24));
(0x15a487eec61db5, (-23));
(0x137787a93c4e94, (-22));
(0x10715a87ce23ac, (-21));
(0x1a2e3e8daec21a, (-21));
(0x13b43a7c33c307, (-20));
(0x1c1b8f2371e0d3, (-20));
(0x13098662c7c25e, (-19));
(0x188736858d1b1d, (-19));
(0x1e197f9825fcdb, (-19));
(0x119bcac6b26bb2, (-18));
(0x13a8e127c05a0d, (-18));
(0x14f55b8a915969, (-18));
(0x1557d00ea3970a, (-18));
(0x14c45b9c8a6a4b, (-18));
(0x134eed421c065e, (-18));
(0x1126fb3c149d16, (-18));
(0x1d1bbe1555317a, (-19));
(0x1794f54009baef, (-19));
(0x123a9368eff0ea, (-19));
(0x1ade1e206bdd56, (-20));
(0x12db7e029ff065, (-20));
(0x192d9703f6c5a0, (-21));
(0x1fed4dd0355032, (-22));
(0x13307d25a30f57, (-22));
(0x15d1d899c77dd4, (-23));
(0x17687bc3e86df0, (-24));
(0x179eb7163b86f9, (-25));
(0x1655d6eb76b75b, (-26));
(0x13b49b694bb6c9, (-27));
(0x10224c627779b6, (-28));
(0x185b85cd3830ec, (-30));
(0x10d02f4fded3d8, (-31));
(0x15019b1a713148, (-33));
(0x176ef872675560, (-35));
(0x16ebfeacc2b5cd, (-37));
(0x132b105447b7ac, (-39));
(0x1a65532d989896, (-42));
(0x1c2997f6ba5852, (-45));
(0x14c8dc2e42397f, (-48));
(0x10000000000000, (-52))];
[(0x147af4a0000000, (-26));
(0x15b8fe80b9c7fd, (-25));
(0x156cd889520820, (-24));
(0x13c3f103c173c6, (-23));
(0x11225da4554527, (-22));
(0x1c04d8cfaf399e, (-22));
(0x15ac5e445d2f41, (-21));
(0x1fccd889dc94fe, (-21));
(0x162beeffbf77cf, (-20));
(0x1d6eabd1062778, (-20));
(0x129f88ae459544, (-19));
(0x167e0c0ea61d41, (-19));
(0x19f30fe172b9a8, (-19));
(0x1c9e1d50cbe575, (-19));
(0x1e2eff80936b49, (-19));
(0x1e74ed542582c1, (-19));
(0x1d6812dac5f73b, (-19));
(0x1b2af5ad82b6b6, (-19));
(0x18035fba834252, (-19));
(0x144cc4ae17c0c1, (-19));
(0x1067b437902090, (-19));
(0x1954c064ea7474, (-20));
(0x12aaf9366636b5, (-20));
(0x1a3ca3f6ea0fb1, (-21));
(0x118f167ccabf65, (-21));
(0x16595011beeb56, (-22));
(0x1b0021c3c784b7, (-23));
(0x1ee5acb3e767e3, (-24));
(0x10b3ac5e07e5d5, (-24));
(0x110221f0752d89, (-25));
(0x104196a907e54d, (-26));
(0x1d0a2865472851, (-28));
(0x181cda3d9c5457, (-29));
(0x127e5c9bb394ef, (-30));
(0x19fe72a096dd3c, (-32));
(0x1091e9a7dca85c, (-33));
(0x12e8d947ec3e8d, (-35));
(0x12f9becca85615, (-37));
(0x1054e1a9111167, (-39));
(0x173b9c7d3010e0, (-42));
(0x19b83a7a4bfb8d, (-45));
(0x13cc8a99af5452, (-48));
(0x10000000000000, (-52))];
[(0x1e4f2180000000, (-29));
(0x11d22c42777f51, (-27));
(0x135a2099a0a078, (-26));
(0x138d7781af20c4, (-25));
(0x127d244f86271f, (-24));
(0x107046c20f8606, (-23));
(0x1b96b84c08c669, (-23));
(0x15ead6001b4103, (-22));
(0x1086975343b9e2, (-21));
(0x17b3d4079a2993, (-21));
(0x1031e7d497934a, (-20));
(0x151d997b2cbbfb, (-20));
(0x1a4cb32821df0f, (-20));
(0x1f5215a596e0cc, (-20));
(0x11d8a294b0de32, (-19));
(0x1378ca1f86942a, (-19));
(0x14598a80b47486, (-19));
(0x146032d6c32e62, (-19));
(0x138c700fd760a3, (-19));
(0x11f845fefe8ad2, (-19));
(0x1fa5e2d1a676e3, (-20));
(0x1ab01c34228051, (-20));
(0x158a7b421a0f15, (-20));
(0x10a172adbab396, (-20));
(0x188ad784f538b0, (-21));
(0x114a12c54a0a25, (-21));
(0x173a7138f312ac, (-22));
(0x1db6b6ea975cb3, (-23));
(0x121043b2e2d0cb, (-23));
(0x14d4b398311438, (-24));
(0x16ba7453682b9a, (-25));
(0x1764f0170b6d69, (-26));
(0x16a303cf40473a, (-27));
(0x14813ff38bb2c8, (-28));
(0x114c9703f559a0, (-29));
(0x1b044ba2bcdbaf, (-31));
(0x135feeb96caf67, (-32));
(0x1944db33248f8a, (-34));
(0x1d955751e0af39, (-36));
(0x1e8db68a4aae1f, (-38));
(0x1b2a59e55ae7cd, (-40));
(0x140c7c1a6f1961, (-42));
(0x17267ba1bec03f, (-45));
(0x12b5524ae1278d, (-48));
(0x10000000000000, (-52))];
[(0x11ec0200000000, (-31));
(0x17906a746007b7, (-30));
(0x1c570a0d881335, (-29));
(0x1f7d90e6705f4e, (-28));
(0x104984fba54dfa, (-26));
(0x1f8dacc257729e, (-26));
(0x1cc17a27f4ddb2, (-25));
(0x18bfc032d8c53b, (-24));
(0x142dc3f3d9c784, (-23));
(0x1f408db1cd2e5a, (-23));
(0x1708de7d1cfb71, (-22));
(0x10303689839200, (-21));
(0x15ba50e7900bec, (-21));
(0x1be1d3ba4bbdfe, (-21));
(0x111f19917ca2fb, (-20));
(0x142407d4c7f4ce, (-20));
(0x16b536aef08a17, (-20));
(0x188ccf6fda6631, (-20));
(0x1975961c321b70, (-20));
(0x195495f1a3ca49, (-20));
(0x182e25ca8a8123, (-20));
(0x16250141d6d17f, (-20));
(0x1373b6957596c4, (-20));
(0x10621694716cb5, (-20));
(0x1a72729132290b, (-21));
(0x147190690f5e0f, (-21));
(0x1e3e775823cb00, (-22));
(0x1562c0169dee8f, (-22));
(0x1ce065d2254776, (-23));
(0x1296543040cca4, (-23));
(0x16c642dafec20c, (-24));
(0x1a816cf020a295, (-25));
(0x1d3b1db96546c7, (-26));
(0x1e75cbfe2367c7, (-27));
(0x1de407e14b8659, (-28));
(0x1b829b8e877698, (-29));
(0x17a149b482859d, (-30));
(0x12d4301fc1d599, (-31));
(0x1ba06c4d0bb569, (-33));
(0x127b67e36ccbcb, (-34));
(0x1645010a5f7144, (-36));
(0x17c292b3e5b30c, (-38));
(0x15eb5d0c69fc50, (-40));
(0x10dfa12e5de855, (-42));
(0x14742e8b6df2e9, (-45));
(0x117e2bca46bab9, (-48));
(0x10000000000000, (-52))];
[(0x10861400000000, (-34));
(0x18981e91ac9868, (-33));
(0x10851ef8e7435e, (-31));
(0x144f49e095f0ac, (-30));
(0x1714957b876d8e, (-29));
(0x186e175de79605, (-28));
(0x183a505f9f61d1, (-27));
(0x169e41985f2987, (-26));
(0x13f40bab069aa6, (-25));
(0x10af8ff300d89c, (-24));
(0x1a85bd4a02139b, (-24));
(0x1413af25b57e39, (-23));
(0x1d00d34412359d, (-23));
(0x14051f779952e9, (-22));
(0x1a723c480ba6c4, (-22));
(0x10bb5af2aa30e1, (-21));
(0x144c27ec2abf96, (-21));
(0x179f6f8815f819, (-21));
(0x1a63f7d394ef54, (-21));
(0x1c4fc9aa09b10b, (-21));
(0x1d2ca0f7a7f40e, (-21));
(0x1ce190b60fe383, (-21));
(0x1b7789028b0411, (-21));
(0x1917a314cf12aa, (-21));
(0x1603a2fdc4975e, (-21));
(0x128a87a2ec3db6, (-21));
(0x1df7b2dcb560ae, (-22));
(0x1738ede8eab9f1, (-22));
(0x113de284cec186, (-22));
(0x18819f6b44f2b6, (-23));
(0x10a68aa16cc88c, (-23));
(0x159a020d8dedd2, (-24));
(0x1ab63b302686a8, (-25));
(0x1f6c1bad3ba9e2, (-26));
(0x118a8f81d32f9d, (-26));
(0x128996897a56f0, (-27));
(0x127b9c1e4523fc, (-28));
(0x1151b847f6efae, (-29));
(0x1e5c51d058f58f, (-31));
(0x18bf859e6fa760, (-32));
(0x12a03a059aab89, (-33));
(0x19a623430b3d8d, (-35));
(0x1fed364309cc6a, (-37));
(0x11ac069ee446ec, (-38));
(0x11013ef44fe2d5, (-40));
(0x1b7be86c3d7dd9, (-43));
(0x11a1056acf5935, (-45));
(0x101fe03f61bad0, (-48));
(0x10000000000000, (-52))];
[(0x16e08000000000, (-38));
(0x13a3d36dad3f56, (-36));
(0x1dd768283ab397, (-35));
(0x14789701fa0e56, (-33));
(0x19b6d9cf86eee8, (-32));
(0x1ddf22d338cc30, (-31));
(0x102b22406d5cec, (-29));
(0x106853ff0ffa8f, (-28));
(0x1f5d46c9063135, (-28));
(0x1c5806a6675fd7, (-27));
(0x184b7d144d5ba5, (-26));
(0x13cdbfa5728637, (-25));
(0x1ec55c757ffb7d, (-25));
(0x16d3a058cb6fe7, (-24));
(0x1031b7b20abf0a, (-23));
(0x1600ebc2c1c135, (-23));
(0x1ca93f116326d4, (-23));
(0x11e9487efd958c, (-22));
(0x157f3fe11924ac, (-22));
(0x18ca58db1df4b8, (-22));
(0x1b7b4acbb2c01c, (-22));
(0x1d4ba58b09dacf, (-22));
(0x1e096c886f2a06, (-22));
(0x1d9fc161825ff4, (-22));
(0x1c1a95031f868f, (-22));
(0x19a47d1b4ad775, (-22));
(0x167f35b4f1830b, (-22));
(0x12f89795758a60, (-22));
(0x1ebd0b1dfd0248, (-23));
(0x17e8adeadded35, (-23));
(0x11d7442b7723f1, (-23));
(0x1985011dcc0372, (-24));
(0x11793ac4a8499d, (-24));
(0x16e0d512126d45, (-25));
(0x1c983fb669a4a9, (-26));
(0x1106e73c08a413, (-26));
(0x13477c6e1bc072, (-27));
(0x14b37ba68cf695, (-28));
(0x1503a949fffceb, (-29));
(0x1417f0a7de58ba, (-30));
(0x120454609eee1a, (-31));
(0x1e220c2c3adea9, (-33));
(0x17574689b14263, (-34));
(0x109a226642c2d7, (-35));
(0x15713bf6e78552, (-37));
(0x18c26bf65b2020, (-39));
(0x1902c5d8a25ddd, (-41));
(0x1563e1b4be3ade, (-43));
(0x1d58d90068ef10, (-46));
(0x1d1ed52076fbe9, (-49));
(0x10000000000000, (-52))];
[(0x165c0000000000, (-42));
(0x16d65bdeb2a9fa, (-40));
(0x13ff8088d03693, (-38));
(0x1f017376eb5302, (-37));
(0x15b67c2611c21f, (-35));
(0x1bdab975268424, (-34));
(0x1087d529fb5070, (-32));
(0x124ae533b38bd1, (-31));
(0x12fc21b7d60e81, (-30));
(0x12914d762acdf4, (-29));
(0x112dd0dc57e357, (-28));
(0x1e2b0a641c5fe8, (-28));
(0x1934bc8d2038d3, (-27));
(0x1415a9dda32cbb, (-26));
(0x1e952e5efd6f1c, (-26));
(0x164878f1511b89, (-25));
(0x1f1e273772f6f5, (-25));
(0x14d8739015df76, (-24));
(0x1ad203d3836504, (-24));
(0x109525b7f731fe, (-23));
(0x13b87cfa97c319, (-23));
(0x1691130027cf7d, (-23));
(0x18dba944c5edd0, (-23));
(0x1a5dae96bc11ba, (-23));
(0x1aeeacc1834a89, (-23));
(0x1a7f1df5f758bc, (-23));
(0x191b199c34c65f, (-23));
(0x16e838cc72d810, (-23));
(0x141f319f4a8d05, (-23));
(0x1102a22fb32436, (-23));
(0x1baa239afd4edb, (-24));
(0x15a05ce02626d8, (-24));
(0x103d9419aa2833, (-24));
(0x17692630e482d0, (-25));
(0x102d67e52aaeb5, (-25));
(0x1568ae0999ec6b, (-26));
(0x1b16f8fda77393, (-27));
(0x105be61713d080, (-27));
(0x12d1f526c35811, (-28));
(0x149311e9497efe, (-29));
(0x154ff8ebe0f7da, (-30));
(0x14d8da1aa7982c, (-31));
(0x132d3096b574d8, (-32));
(0x10812869099aa0, (-33));
(0x1a69ec2129d166, (-35));
(0x137e77b095a8a8, (-36));
(0x1a42e956aa7c28, (-38));
(0x1fd5663cbe4de0, (-40));
(0x110409854762d6, (-41));
(0x1f20940af6494c, (-44));
(0x172a4870255098, (-46));
(0x1974b2334f2346, (-49));
(0x10000000000000, (-52))];
[(0x1b800000000000, (-47));
(0x11b2daae6e27b7, (-44));
(0x126cb3c5db2245, (-42));
(0x1073471862c5c9, (-40));
(0x1a03e5254eda81, (-39));
(0x129702c2680bb1, (-37));
(0x18584e451d9d11, (-36));
(0x1d82b2060924b8, (-35));
(0x10aed628f512d1, (-33));
(0x11b2fa1dabdaba, (-32));
(0x11b4189fe08a56, (-31));
(0x10c2ab07773e5f, (-30));
(0x1e224782bdd4fd, (-30));
(0x19ca9f22d582f2, (-29));
(0x15109f495c5423, (-28));
(0x1072ee346b54a2, (-27));
(0x1899ca6b0ab2fb, (-27));
(0x11a4337853cbab, (-26));
(0x184acc1428331d, (-26));
(0x1012ef80c1a1ba, (-25));
(0x14760e7bd064e0, (-25));
(0x19120f3bce979e, (-25));
(0x1d95cee62a9e38, (-25));
(0x10d1fa1573b321, (-24));
(0x126f6adeb2254f, (-24));
(0x137b081d7962fd, (-24));
(0x13d991092201e9, (-24));
(0x13812f4aac53d1, (-24));
(0x127b1d1a287d5e, (-24));
(0x10e218198b55ca, (-24));
(0x1dbbf6b1826dba, (-25));
(0x193af7202d8cb2, (-25));
(0x149eb6fd828d4e, (-25));
(0x1038dcae3a621b, (-25));
(0x188daafafa12a7, (-26));
(0x11dc268f100907, (-26));
(0x18f2df6ea5d3a2, (-27));
(0x10b6819a6a5528, (-27));
(0x157261b2a6ddad, (-28));
(0x1a517d20abba9d, (-29));
(0x1ed3a46b5b6865, (-30));
(0x1131bf6c8e574c, (-30));
(0x123872ae4f0faa, (-31));
(0x1248ba93c7e6f3, (-32));
(0x114f620869c5d7, (-33));
(0x1ec7f5c44c44be, (-35));
(0x198e8ee225bac8, (-36));
(0x13ac76aeb0c325, (-37));
(0x1bd2a29821d814, (-39));
(0x11d8a67d30af10, (-40));
(0x146772779d37ed, (-42));
(0x143f1c6cc855e4, (-44));
(0x10afbaf6d01f09, (-46));
(0x14f9e6bbc4ecb3, (-49));
(0x10000000000000, (-52))];
[(0x10000000000000, (-52));
(0x1deeea11683f49, (-50));
(0x139f152d0f5470, (-47));
(0x14cfc8a5c43b10, (-45));
(0x12f05b3e81f78f, (-43));
(0x1e89bd654a8677, (-42));
(0x16421bace7e010, (-40));
(0x1dbe6ad0a6791b, (-39));
(0x12672e28db0769, (-37));
(0x1540009ffffda5, (-36));
(0x1708d276fd683a, (-35));
(0x178d59fe08858a, (-34));
(0x16cde4ff291b28, (-33));
(0x14fa14f81d9053, (-32));
(0x1261aa91678ed2, (-31));
(0x1ec215f3cd50b2, (-31));
(0x189e57fa72a49f, (-30));
(0x12e1ad4bdf0d8f, (-29));
(0x1bcafad47feb16, (-29));
(0x13a70ceb7a6b77, (-28));
(0x1abaf7eccc416b, (-28));
(0x117fc640516172, (-27));
(0x1612652e4dd640, (-27));
(0x1ad5f667b999f1, (-27));
(0x1f77bec016f88a, (-27));
(0x11cd04817a4cfb, (-26));
(0x136fefe38e4731, (-26));
(0x147d19241e6add, (-26));
(0x14d9f0630f7a8f, (-26));
(0x147d19241e6add, (-26));
(0x136fefe38e4731, (-26));
(0x11cd04817a4cfb, (-26));
(0x1f77bec016f88a, (-27));
(0x1ad5f667b999f1, (-27));
(0x1612652e4dd640, (-27));
(0x117fc640516172, (-27));
(0x1abaf7eccc416b, (-28));
(0x13a70ceb7a6b77, (-28));
(0x1bcafad47feb16, (-29));
(0x12e1ad4bdf0d8f, (-29));
(0x189e57fa72a49f, (-30));
(0x1ec215f3cd50b2, (-31));
(0x1261aa91678ed2, (-31));
(0x14fa14f81d9053, (-32));
(0x16cde4ff291b28, (-33));
(0x178d59fe08858a, (-34));
(0x1708d276fd683a, (-35));
(0x1540009ffffda5, (-36));
(0x12672e28db0769, (-37));
(0x1dbe6ad0a6791b, (-39));
(0x16421bace7e010, (-40));
(0x1e89bd654a8677, (-42));
(0x12f05b3e81f78f, (-43));
(0x14cfc8a5c43b10, (-45));
(0x139f152d0f5470, (-47));
(0x1deeea11683f49, (-50));
(0x10000000000000, (-52))]];
   [[(0x1d000000000000, (-48));
(0x10000000000000, (-52))];
[(0x1fb80000000000, (-41));
(0x1a43ffb20700eb, (-44));
(0x1cfb95bb9dcc0c, (-48));
(0x10000000000000, (-52))];
[(0x14bdb800000000, (-35));
(0x1cad3aa909926e, (-38));
(0x1fa97cae063cc3, (-41));
(0x1a33fd40926740, (-44));
(0x1cee52e38987e0, (-48));
(0x10000000000000, (-52))];
[(0x19adf000000000, (-31));
(0x18ed7cdc5755d9, (-33));
(0x14add5eb22d832, (-35));
(0x1c8a2ff14424d1, (-38));
(0x1f7dffefbdf3a9, (-41));
(0x1a13f854aa0cdb, (-44));
(0x1cd82b446159f3, (-48));
(0x10000000000000, (-52))];
[(0x1263e5e0000000, (-27));
(0x170cafd50646d0, (-29));
(0x1992396bc5dce4, (-31));
(0x18bf93c0934802, (-33));
(0x147e5b375fedcb, (-35));
(0x1c445a81582d82, (-38));
(0x1f35b1801850b9, (-41));
(0x19e3f0dbfc30de, (-44));
(0x1cb90a49bb852c, (-48));
(0x10000000000000, (-52))];
[(0x110d8160000000, (-24));
(0x1a443926f44ed5, (-26));
(0x124a25e8fd3324, (-27));
(0x16d3ac8de48474, (-29));
(0x193f94e0324e0f, (-31));
(0x186469bbbb8a62, (-33));
(0x142fca4316cacc, (-35));
(0x1bdc3a587e212b, (-38));
(0x1ed0d3d9d8432e, (-41));
(0x19a3e6ba37dfc8, (-44));
(0x1c90d29d2d43cd, (-48));
(0x10000000000000, (-52))];
[(0x15ffc822000000, (-22));
(0x1428d990ee7215, (-23));
(0x10effb2e144717, (-24));
(0x19f237ab79c213, (-26));
(0x11fd8c95cc0a1f, (-27));
(0x1662e0df66ff36, (-29));
(0x18b77dabdb12bf, (-31));
(0x17dd4d332bcb7b, (-33));
(0x13c2fb794b0822, (-35));
(0x1b528f757ce156, (-38));
(0x1e4fc49e1f911b, (-41));
(0x1953d9c7fb2b79, (-44));
(0x1c5f5d98afcebe, (-48));
(0x10000000000000, (-52))];
[(0x14bdf736000000, (-20));
(0x161c71427f380e, (-21));
(0x15d21f670de13f, (-22));
(0x13dc637ba9c869, (-23));
(0x10986066608e7b, (-24));
(0x19509505264be3, (-26));
(0x118008a2d1967e, (-27));
(0x15bcbb06cf5d3c, (-29));
(0x17fc6471720e9b, (-31));
(0x172c2ebee08ec7, (-33));
(0x13391c044a434e, (-35));
(0x1aa859d697bacc, (-38));
(0x1db2fd27a150d6, (-41));
(0x18f3c9d1487605, (-44));
(0x1c247a85fe81fa, (-48));
(0x10000000000000, (-52))];
[(0x1da04554300000, (-19));
(0x12116e7026ac80, (-19));
(0x148b710863d277, (-20));
(0x15b920f2b53c24, (-21));
(0x154aff168a5b6b, (-22));
(0x13464343845f96, (-23));
(0x10098e059436c1, (-24));
(0x1863fbf6e8c090, (-26));
(0x10d4c22b632347, (-27));
(0x14e4cdba461a24, (-29));
(0x1711a3e844cf59, (-31));
(0x16539b296676b0, (-33));
(0x1293abf709198e, (-35));
(0x19ded97973c313, (-38));
(0x1cfb134e568751, (-41));
(0x1883b6936503c8, (-44));
(0x1bdfeda1d7824a, (-48));
(0x10000000000000, (-52))];
[(0x10757bd9700000, (-17));
(0x16afe2f7c2f01c, (-18));
(0x1d4cd800320ff4, (-19));
(0x11b3066053846c, (-19));
(0x13f65319b48c7d, (-20));
(0x14f6ea11a55fa2, (-21));
(0x146fdaf1da7136, (-22));
(0x126bee3b79b84d, (-23));
(0x1e904ebc03e88c, (-25));
(0x173336b437aa8c, (-26));
(0x1000026aa1fa08, (-27));
(0x13dfba21faf994, (-29));
(0x15fb713ef5056b, (-31));
(0x1556b36fc20113, (-33));
(0x11d47be91d9087, (-35));
(0x18f78e5af1d6f8, (-38));
(0x1c28ba6109125c, (-41));
(0x18039fb9f53e8f, (-44));
(0x1b916ed68964ec, (-48));
(0x10000000000000, (-52))];
[(0x1d09ca0c6c0000, (-17));
(0x1666d41911a2d7, (-17));
(0x10407b5c87ec71, (-17));
(0x1627becdfadc3c, (-18));
(0x1c57522d5d3281, (-19));
(0x10fb2e0e1f3ec2, (-19));
(0x1305d0c801e112, (-20));
(0x13de5b40c80da8, (-21));
(0x13497482a6a7ff, (-22));
(0x11553fb0dd3205, (-23));
(0x1cb4c83c2673ad, (-25));
(0x15c6f02da1958c, (-26));
(0x1e0e254be6f5a1, (-28));
(0x12b3130efa4a47, (-29));
(0x14bec842e1657e, (-31));
(0x143922c14dafed, (-33));
(0x10fda9ffd581b0, (-35));
(0x17f43876f91071, (-38));
(0x1b3cc45bd23c4f, (-41));
(0x177384db1770cd, (-44));
(0x1b38a81c8a0a22, (-48));
(0x10000000000000, (-52))];
[(0x14a8dca6b00000, (-16));
(0x11b565cd3f74f0, (-16));
(0x1c9fb1f077c18f, (-17));
(0x15cddf475ba98b, (-17));
(0x1f49f12491d004, (-18));
(0x151fcc076def39, (-18));
(0x1acd97c083c4b5, (-19));
(0x1fe6edd0401e86, (-20));
(0x11c56021fa7d83, (-20));
(0x127ba2f4dfff90, (-21));
(0x11e36145a7cb1a, (-22));
(0x100c18183bb855, (-23));
(0x1a8f9aa3b24b95, (-25));
(0x142963cc5d46c6, (-26));
(0x1be026355b67da, (-28));
(0x116539efb6439e, (-29));
(0x1361537936a6cf, (-31));
(0x12ff127f8b9a51, (-33));
(0x10119e5d4d23a0, (-35));
(0x16d6d7c82b6670, (-38));
(0x1a382364e731c1, (-41));
(0x16d3657220f6bc, (-44));
(0x1ad5336963eefb, (-48));
(0x10000000000000, (-52))];
[(0x17ffe504320000, (-16));
(0x16b9ea40ff9bf9, (-16));
(0x1453b3903a526a, (-16));
(0x112cbe42f28c5c, (-16));
(0x1b69697fdb1964, (-17));
(0x14a6b6a13af737, (-17));
(0x1d5a350c9c73a9, (-18));
(0x13a7faa62a9155, (-18));
(0x18c58fe5f74a8c, (-19));
(0x1d52af5cb6482c, (-20));
(0x1043f5ab6fe9c0, (-20));
(0x10ddd3340c0e5e, (-21));
(0x104b6a4edb61af, (-22));
(0x1d37c772ea7a32, (-24));
(0x1831d87508777b, (-25));
(0x1265fe60674d30, (-26));
(0x198396052cfc01, (-28));
(0x1ffa6c4486c875, (-30));
(0x11e95061a75489, (-31));
(0x11ad1c3de5ee33, (-33));
(0x1e260dd91480a0, (-36));
(0x15a1ac477ad785, (-38));
(0x191beb9bece348, (-41));
(0x162340d8769ae4, (-44));
(0x1a66980c3ad1bd, (-48));
(0x10000000000000, (-52))];
[(0x16f955c2600000, (-16));
(0x17edb0bf91c68e, (-16));
(0x1790b42d84d56c, (-16));
(0x15f4a3d25c8672, (-16));
(0x135b813b33dbca, (-16));
(0x10265dbf863a61, (-16));
(0x197e0f8a0fea88, (-17));
(0x1305c34a99f8ac, (-17));
(0x1ad176a9705526, (-18));
(0x11d67255e99a8a, (-18));
(0x165b65c4d415a1, (-19));
(0x1a5a62bc72bd07, (-20));
(0x1d260df23968d4, (-21));
(0x1e2bf5cf584485, (-22));
(0x1d219de2ad7ff3, (-23));
(0x1a221e289d66cf, (-24));
(0x15addcfa941d11, (-25));
(0x1088f3979d74c5, (-26));
(0x1706e5f351d27d, (-28));
(0x1d050ec88c3c05, (-30));
(0x105d7026802960, (-31));
(0x104839c157b7eb, (-33));
(0x1c09a4fec7f930, (-36));
(0x145735eb903700, (-38));
(0x17e9554bd1160e, (-41));
(0x1563163bb62966, (-44));
(0x19ec474a261263, (-48));
(0x10000000000000, (-52))];
[(0x123fc005e80000, (-16));
(0x14d68ca717dc22, (-16));
(0x1681f8d03a9e43, (-16));
(0x1704c1b99a88db, (-16));
(0x164ddcacc82c29, (-16));
(0x147becf123247e, (-16));
(0x11d5364e945fa5, (-16));
(0x1d6db3097a3b17, (-17));
(0x17015d1bb3b8a8, (-17));
(0x11070759ec35f9, (-17));
(0x17d7dc70d26e4f, (-18));
(0x1f8b592bb0cbaf, (-19));
(0x13af526c155a99, (-19));
(0x172245701777f1, (-20));
(0x198acf04ce8903, (-21));
(0x1a6c48ea7d6199, (-22));
(0x1986eb8483d3cc, (-23));
(0x16f0e078e62abf, (-24));
(0x131687667814bd, (-25));
(0x1d3d97a6571882, (-27));
(0x1478f684dbd5f3, (-28));
(0x19f9e8811e49d8, (-30));
(0x1d896a14ce2c8c, (-32));
(0x1dab65ffe7aa4e, (-34));
(0x19d456608a0c0e, (-36));
(0x12fa34a7ec1048, (-38));
(0x16a1bf942feff9, (-41));
(0x1492e48ffe0933, (-44));
(0x196597f97f8aa8, (-48));
(0x10000000000000, (-52))];
[(0x182cd022400000, (-17));
(0x1e31fc6187f430, (-17));
(0x11d584b89c7ae9, (-16));
(0x13f37135c6d135, (-16));
(0x1528d42857e627, (-16));
(0x154a942ada8dd3, (-16));
(0x1456084a14a2f3, (-16));
(0x127110e9698427, (-16));
(0x1fc1a166b7b795, (-17));
(0x19f4192bab6ee5, (-17));
(0x141fd24182f970, (-17));
(0x1d96b1425c5feb, (-18));
(0x149a56bbd24040, (-18));
(0x1b247b79c67b07, (-19));
(0x10e324f1d0ace6, (-19));
(0x13cf87b49a0eae, (-20));
(0x15dc2bd01cc0c0, (-21));
(0x16a09663891a1c, (-22));
(0x15e630ef7e0fec, (-23));
(0x13bd5a37fc69fb, (-24));
(0x107e718db3fffd, (-25));
(0x1967dd2efed68d, (-27));
(0x11e89f286abb56, (-28));
(0x16e8aaf4c43e32, (-30));
(0x1a4c99e3930e25, (-32));
(0x1ab6144074ea76, (-34));
(0x178cdfece4574b, (-36));
(0x118da86b9b90bd, (-38));
(0x1546b3a62b0422, (-41));
(0x13b2aa7c752577, (-44));
(0x18d1c0be7f20ab, (-48));
(0x10000000000000, (-52))];
[(0x1ac8ec6bc40000, (-18));
(0x1245bb567e42ba, (-17));
(0x178f13f203bfc7, (-17));
(0x1cc1ad62a97979, (-17));
(0x10a3be35404dae, (-16));
(0x124720fdd8cf53, (-16));
(0x1312a9d77172fd, (-16));
(0x12eaf761ae04a8, (-16));
(0x11d77e82124396, (-16));
(0x100072d2075ee2, (-16));
(0x1b4aed12bd511f, (-17));
(0x161fe7f5335025, (-17));
(0x110a148742a9af, (-17));
(0x18ea763aabf9d5, (-18));
(0x1146aae3c202fa, (-18));
(0x16b10cf5bfedc4, (-19));
(0x1c2f86c113c5ba, (-20));
(0x1085ca947e596d, (-20));
(0x123e22209e55b9, (-21));
(0x12eab3e0e9b31e, (-22));
(0x125cef274e3e00, (-23));
(0x109f4db542ead8, (-24));
(0x1bee5715644c80, (-26));
(0x15a85c3bb7e739, (-27));
(0x1ec8691aca906c, (-29));
(0x13e0bf2cbf82e0, (-30));
(0x1712d2ea3dc94d, (-32));
(0x17bbcaf048d0eb, (-34));
(0x153a5aae66b912, (-36));
(0x1014d11f424caf, (-38));
(0x13d9e8ba20e749, (-41));
(0x12c2663f1919b5, (-44));
(0x182fd05f129838, (-48));
(0x10000000000000, (-52))];
[(0x18d96192e00000, (-19));
(0x12824576933892, (-18));
(0x1a04b746760850, (-18));
(0x114c11fa0a1009, (-17));
(0x15cb5cef920a28, (-17));
(0x1a10162e9a1070, (-17));
(0x1d9db2f732426d, (-17));
(0x100105a2a9867f, (-16));
(0x1076385f380d6d, (-16));
(0x101f60a4218dc5, (-16));
(0x1e139470c2b156, (-17));
(0x1ab7d100550f44, (-17));
(0x1699b975ca0209, (-17));
(0x123270a1a1b5af, (-17));
(0x1be02fcd4243ec, (-18));
(0x144b753e55d0b9, (-18));
(0x1c0f407f8e4b28, (-19));
(0x126511ac304d37, (-19));
(0x16d5bda99d1068, (-20));
(0x1ac9b49f1a61fb, (-21));
(0x1da12ef05241bd, (-22));
(0x1ed1114b2e290c, (-23));
(0x1e0a89c5767bcf, (-24));
(0x1b57ca326edcf1, (-25));
(0x17210b4fd3b855, (-26));
(0x1214b17306a648, (-27));
(0x19f2233f844dbd, (-29));
(0x10f0d7820f4db4, (-30));
(0x13ea2bf41f6fe5, (-32));
(0x14c7ef1777c627, (-34));
(0x12e42a315d447f, (-36));
(0x1d265d44199e36, (-39));
(0x125d48f138908d, (-41));
(0x11c21582ef075f, (-44));
(0x177ea35d632e43, (-48));
(0x10000000000000, (-52))];
[(0x134a3073f00000, (-20));
(0x1f63b56c2e4082, (-20));
(0x180c6790480ff9, (-19));
(0x11666149221d73, (-18));
(0x17d60d08812c7b, (-18));
(0x1ef8d83b9ad672, (-18));
(0x131dca06fd6cfe, (-17));
(0x16725478765b35, (-17));
(0x1918979b07d08e, (-17));
(0x1abc62ae2605e1, (-17));
(0x1b279d600dac3a, (-17));
(0x1a4d7867563ae3, (-17));
(0x184cd985273188, (-17));
(0x1569674eac06b9, (-17));
(0x11fd4cd5459382, (-17));
(0x1ccf7462ddb43c, (-18));
(0x15f95a7a88082d, (-18));
(0x1fe681f7a3e59b, (-19));
(0x16036cfa3f7e01, (-19));
(0x1cd859d5270f0b, (-20));
(0x11ea1e1c17f12d, (-20));
(0x150da8fbcdfbe0, (-21));
(0x175b4a80628adc, (-22));
(0x18652a7154c819, (-23));
(0x17e97ca533e7cb, (-24));
(0x15e99b0bf4a444, (-25));
(0x12afe3451afc50, (-26));
(0x1d7f53253bf13f, (-28));
(0x15664e89c618b3, (-29));
(0x1c4d05caf643a8, (-31));
(0x10e018c98c5f7f, (-32));
(0x11e5ca15fd3dee, (-34));
(0x1091e9a7dca85c, (-36));
(0x1a190189992fd6, (-39));
(0x10d2f76941a067, (-41));
(0x10b1b520499c4d, (-44));
(0x16bcd594fa2a99, (-48));
(0x10000000000000, (-52))];
[(0x18fda774000000, (-22));
(0x163e3a05573f95, (-21));
(0x1296344844b038, (-20));
(0x1d4556448dae20, (-20));
(0x15c89ab8e2fea7, (-19));
(0x1eb812a1a27438, (-19));
(0x14900232048c59, (-18));
(0x1a2d18c7d2ab42, (-18));
(0x1fba4ef9d75c0f, (-18));
(0x1253dbd8343980, (-17));
(0x1432cacad2b5e1, (-17));
(0x153f5db2ec0410, (-17));
(0x1557d00ea3970a, (-17));
(0x1479ffe1d9b07e, (-17));
(0x12c3a950c52d78, (-17));
(0x106c0b6b705949, (-17));
(0x1b7191f9ba94f0, (-18));
(0x15e20f586f891f, (-18));
(0x10a3fb3d58f75e, (-18));
(0x181d4caf1b8466, (-19));
(0x10a172adbab396, (-19));
(0x15ce0b6ade81ee, (-20));
(0x1b21f904c39fdc, (-21));
(0x1ffb7b3eba6ee6, (-22));
(0x11d0d30159ecf3, (-22));
(0x12b5d2d1ac4604, (-23));
(0x1276ef48625794, (-24));
(0x110f12739cc509, (-25));
(0x1d600e64e3f92d, (-27));
(0x17712f35956cd2, (-28));
(0x11392e2c01f31a, (-29));
(0x171b8944b59c43, (-31));
(0x1c02242341970a, (-33));
(0x1e40a33a479d8b, (-35));
(0x1c96ace684f51d, (-37));
(0x17098e83b9e191, (-39));
(0x1e7aafccab8486, (-42));
(0x1f228170f9f9ff, (-45));
(0x15e8add236a58e, (-48));
(0x10000000000000, (-52))];
[(0x1ae16112000000, (-24));
(0x1a3d896d000000, (-23));
(0x17f43e7be7ce52, (-22));
(0x148b115d596474, (-21));
(0x109cf99c87c3b1, (-20));
(0x196a09d7b37e6d, (-20));
(0x126e71942e45bb, (-19));
(0x1966994cd87123, (-19));
(0x10a855966eca12, (-18));
(0x14d243d3f5546a, (-18));
(0x18d4b63db21c5a, (-18));
(0x1c471be8c0983b, (-18));
(0x1ec5b3d6fd8a4c, (-18));
(0x1001dc0afab147, (-17));
(0x1fda38b4a7f619, (-18));
(0x1e4fc2bd8d4973, (-18));
(0x1b96cb814c1b1e, (-18));
(0x18035fba834252, (-18));
(0x13faec9ea89e97, (-18));
(0x1fc4b11806ef85, (-19));
(0x181d4caf1b8466, (-19));
(0x11765203373c90, (-19));
(0x1819a0d46f314b, (-20));
(0x1fa7a2858ee52b, (-21));
(0x13c0f94c641752, (-21));
(0x176214f1c606fe, (-22));
(0x1a31c0bf246206, (-23));
(0x1bb266ec93835f, (-24));
(0x1b8e80449ac823, (-25));
(0x19b40c98477a08, (-26));
(0x1660673ec8d09a, (-27));
(0x1215a3ae353f41, (-28));
(0x1af5757ad3e0f9, (-30));
(0x126167b7230b1f, (-31));
(0x16b07a6bb5b628, (-33));
(0x1903d749b4567a, (-35));
(0x18306f3d832cd8, (-37));
(0x1400835e508ef8, (-39));
(0x1b3e3142dababf, (-42));
(0x1cc16423e7b94b, (-45));
(0x15000000000000, (-48));
(0x10000000000000, (-52))];
[(0x17d075c0000000, (-26));
(0x1999b1c8000000, (-25));
(0x1999b1c8000000, (-24));
(0x17f43e7be7ce52, (-23));
(0x1511ea6cdef771, (-22));
(0x117cd0daa9db77, (-21));
(0x1b798e199f73ec, (-21));
(0x147ab7166c4d7b, (-20));
(0x1d078aa0f75cbb, (-20));
(0x1398dd29734816, (-19));
(0x193ced5e0294dd, (-19));
(0x1f09e3cd1ea371, (-19));
(0x123e649629ac89, (-18));
(0x1483cd39fe5c33, (-18));
(0x16143855c3b6bb, (-18));
(0x16c071a59c8b36, (-18));
(0x1673f88c68a82f, (-18));
(0x1538eb4fc463a1, (-18));
(0x1335e62ecf6841, (-18));
(0x10a66fd98c8428, (-18));
(0x1b9fe7e85f1310, (-19));
(0x15ec172ad3328b, (-19));
(0x10a172adbab396, (-19));
(0x1819a0d46f314b, (-20));
(0x10a9122b58ae82, (-20));
(0x15f2dc1bfd6f3e, (-21));
(0x1b8272fe526295, (-22));
(0x105f187776bd44, (-22));
(0x1276ef48625794, (-23));
(0x13aeede7dc45d0, (-24));
(0x13c59388d48541, (-25));
(0x12a5ab5efcadd6, (-26));
(0x1070c3588d7f53, (-27));
(0x1af5757ad3e0f9, (-29));
(0x146c3a59b528cd, (-30));
(0x1c5c9906a323b3, (-32));
(0x11de2c10131932, (-33));
(0x14285cb342a55f, (-35));
(0x1400835e508ef8, (-37));
(0x1106dec9c8b4b7, (-39));
(0x17f67e1debc514, (-42));
(0x1a400000000000, (-45));
(0x14000000000000, (-48));
(0x10000000000000, (-52))];
[(0x112cd740000000, (-28));
(0x1473dfa3d57237, (-27));
(0x167f7601046409, (-26));
(0x1708974a2f2977, (-25));
(0x1613f7c234f8fb, (-24));
(0x13e7c077d9160c, (-23));
(0x10f1cac20a98d5, (-22));
(0x1b527abe8df338, (-22));
(0x14ea7f1f2dfd8b, (-21));
(0x1e78d31721dffa, (-21));
(0x15289ec1545b60, (-20));
(0x1c0ceb4b86bb5c, (-20));
(0x11c57d6c4ddf30, (-19));
(0x158b479c5eb10c, (-19));
(0x1901ed586f3765, (-19));
(0x1bcfb41bf05b13, (-19));
(0x1da5a1260da935, (-19));
(0x1e4d7abbd65312, (-19));
(0x1db3d9cb8fcaad, (-19));
(0x1bebc44c72ea49, (-19));
(0x192ae8f0624db1, (-19));
(0x15bf7d16fd125a, (-19));
(0x1202518f023f5a, (-19));
(0x1c90eb4cc5c597, (-20));
(0x15af0872ba3e2f, (-20));
(0x1f7a9d4351eb08, (-21));
(0x15d3a4c7bd0650, (-21));
(0x1ce065d2254776, (-22));
(0x1232246d8a8b88, (-22));
(0x15ce0cd1aa40fe, (-23));
(0x18cb2f34af3cec, (-24));
(0x1aaf1e810c3167, (-25));
(0x1b1a23fdf3083d, (-26));
(0x19e2da614ed5ab, (-27));
(0x17273cd07cce05, (-28));
(0x134b390fb76057, (-29));
(0x1dc562ea808a1b, (-31));
(0x1519a6ff0ecb36, (-32));
(0x1b3470d74ae5da, (-34));
(0x1f7e6ff0be3a2e, (-36));
(0x1015ebe29bc4f8, (-37));
(0x1c4c3d350894f9, (-40));
(0x14aa71b81fa5c9, (-42));
(0x179e38d26d4fc1, (-45));
(0x12e4fa41f10c9a, (-48));
(0x10000000000000, (-52))];
[(0x13d41800000000, (-31));
(0x1a615d592ff4db, (-30));
(0x100e66064ffdc2, (-28));
(0x121032c719fd7b, (-27));
(0x12ec65f5276b13, (-26));
(0x1291fbcf0f9351, (-25));
(0x1126addeae152f, (-24));
(0x1dee118089e7fa, (-24));
(0x18bfc032d8c53b, (-23));
(0x1371db2b84c3e2, (-22));
(0x1d181c26ad092a, (-22));
(0x14c35db069c42f, (-21));
(0x1c5004b1f5685f, (-21));
(0x12770f46424e08, (-20));
(0x171032a1b422b0, (-20));
(0x1b9b894398d0a7, (-20));
(0x1fb17c815d5a23, (-20));
(0x1174a720ecf268, (-19));
(0x1274fac2b9658b, (-19));
(0x12bcd04db0a02e, (-19));
(0x124419ec46f138, (-19));
(0x1119186981c225, (-19));
(0x1ebb51072ecb38, (-20));
(0x1a823488f9173b, (-20));
(0x15f02b7a2f3f5d, (-20));
(0x1168daabcb0f80, (-20));
(0x1a7a4328313fbd, (-21));
(0x1346df8ec7e0cf, (-21));
(0x1ad868ccb54add, (-22));
(0x11db1108a59813, (-22));
(0x16a7ebdd02f5a4, (-23));
(0x1b5f1a12a213aa, (-24));
(0x1f6c1bad3ba9e2, (-25));
(0x1118db6711e457, (-25));
(0x11960f6344b921, (-26));
(0x110a54274b27a2, (-27));
(0x1efb4778435dbd, (-29));
(0x1a4b06b5850b3d, (-30));
(0x14b4ad8ee74e87, (-31));
(0x1e0888d190cb2a, (-33));
(0x13de1bc1b60c4e, (-34));
(0x17ad6a8d3be871, (-36));
(0x18fdf050a55f0e, (-38));
(0x16d07e05a76af0, (-40));
(0x1161e61cb0517a, (-42));
(0x14dbe0ef39fb5f, (-45));
(0x11a9dc8f6df103, (-48));
(0x10000000000000, (-52))];
[(0x11df6400000000, (-34));
(0x1ae6117b7b659a, (-33));
(0x124629852f489b, (-31));
(0x16ba791b25a67d, (-30));
(0x1a233e78d1b2aa, (-29));
(0x1c0130a6053f6d, (-28));
(0x1c1effeb475713, (-27));
(0x1a97267d3071ed, (-26));
(0x17c45cdd1b90fd, (-25));
(0x1424ed715deb67, (-24));
(0x103b9213a4ff11, (-23));
(0x18ed6452e0b2e9, (-23));
(0x12452ee5c3fd52, (-22));
(0x199af47bc20c81, (-22));
(0x112d328f592fe4, (-21));
(0x1615ba5fd69eaa, (-21));
(0x1b3ccc14ba249c, (-21));
(0x101f6fe8d2db81, (-20));
(0x12552fdd1210e4, (-20));
(0x1407ce6826126c, (-20));
(0x15094614ad2133, (-20));
(0x153d3e6b33f1d6, (-20));
(0x149e120442249a, (-20));
(0x133dcb2ab75de6, (-20));
(0x1142db4ff7b83c, (-20));
(0x1dc2b7eafa8d18, (-21));
(0x18a4e5f29caab6, (-21));
(0x13978cfdd2900c, (-21));
(0x1de2d965956882, (-22));
(0x15d9bc680eab92, (-22));
(0x1e98cc0c62f5c3, (-23));
(0x147d539cb9d6a4, (-23));
(0x1a35d826fc6e6c, (-24));
(0x1ff8497c2891c4, (-25));
(0x128e0134401370, (-25));
(0x1472df9cd8c4a0, (-26));
(0x155695016c4ad9, (-27));
(0x1503a949fffceb, (-28));
(0x1374993a70ef8a, (-29));
(0x10da707494a6e4, (-30));
(0x1b295937027169, (-32));
(0x1436bd8b92c475, (-33));
(0x1b880cee55e161, (-35));
(0x10f39ee623ba4a, (-36));
(0x1291d0f8c45818, (-38));
(0x11af71aff7f260, (-40));
(0x1c4be9198cb700, (-43));
(0x11f8a92ba3193e, (-45));
(0x104760c95db310, (-48));
(0x10000000000000, (-52))];
[(0x18390000000000, (-38));
(0x150389ebd0424b, (-36));
(0x1022c7cdd709bc, (-34));
(0x16618e1e2c06b1, (-33));
(0x1c6dc3e184eb4b, (-32));
(0x10b3afe14ae3d5, (-30));
(0x124ae533b38bd1, (-29));
(0x12c93d2711c936, (-28));
(0x122d38cb03454f, (-27));
(0x10a22ab9dbadd5, (-26));
(0x1ce23f98241115, (-26));
(0x17db6aa349a7c5, (-25));
(0x12c995f993633e, (-24));
(0x1c43d17a00cbc5, (-24));
(0x14577271d85d51, (-23));
(0x1c0c97ec3e50d1, (-23));
(0x128c247771b59e, (-22));
(0x178c29bb1ada85, (-22));
(0x1cb8cf958b81a2, (-22));
(0x10d6f7ae298497, (-21));
(0x12fe21e9798d47, (-21));
(0x149c7818c61015, (-21));
(0x1587179eb09f64, (-21));
(0x15a4d1d67ded8d, (-21));
(0x14f2865d9f0115, (-21));
(0x1383aaa14a29e2, (-21));
(0x117edf996ea123, (-21));
(0x1e2eca6eefd388, (-22));
(0x1909d8d5f632fd, (-22));
(0x13f717f8555a04, (-22));
(0x1e95996f156230, (-23));
(0x167be825558b03, (-23));
(0x1fb2c329b7902b, (-24));
(0x156690a19f295f, (-24));
(0x1ba386f9441739, (-25));
(0x110b286dc26f8a, (-25));
(0x14091b895905e0, (-26));
(0x1666843f2e85db, (-27));
(0x17c1e376658836, (-28));
(0x17d3f6683e0d7a, (-29));
(0x1684757e624531, (-30));
(0x13f5a5911b7984, (-31));
(0x10812869099aa0, (-32));
(0x194a0c3bd80763, (-34));
(0x11cba719e102ce, (-35));
(0x16be364e03ef6f, (-37));
(0x19fdf4eb723636, (-39));
(0x19fdf4eb723636, (-41));
(0x1602a2c04eb34c, (-43));
(0x1de7f65eb09b32, (-46));
(0x1d64d51e0db1c5, (-49));
(0x10000000000000, (-52))];
[(0x17340000000000, (-42));
(0x17ef2d0a67c5fc, (-40));
(0x152bb83fc2e065, (-38));
(0x1094ddec24a0a9, (-36));
(0x1777f4e4418bfc, (-35));
(0x1e6e61d6650456, (-34));
(0x12423ab3d635cd, (-32));
(0x146eaf67b8daae, (-31));
(0x15732e76f7d3cb, (-30));
(0x1539cadd8d380e, (-29));
(0x13e01b3f48a2b1, (-28));
(0x11aae5ad254eb9, (-27));
(0x1de5c6356f893e, (-27));
(0x1822065dfaae34, (-26));
(0x129e731d83de75, (-25));
(0x1b8124e096fe94, (-25));
(0x1379c03f68785c, (-24));
(0x1a78c6f128d359, (-24));
(0x1148c073b93e74, (-23));
(0x15b3cc48f94564, (-23));
(0x1a382ad3ea7f9c, (-23));
(0x1e7ee71dd17969, (-23));
(0x1114bd7dee62d8, (-22));
(0x126f6adeb2254f, (-22));
(0x132c7da8eed6e2, (-22));
(0x133834a58a5028, (-22));
(0x12915ec8bb90d8, (-22));
(0x11498d3679aa2a, (-22));
(0x1f0431a68366df, (-23));
(0x1acd54d09db081, (-23));
(0x164cf90521d24b, (-23));
(0x11db80497938cb, (-23));
(0x1b818529f4273b, (-24));
(0x145bccecd432e6, (-24));
(0x1cefbb0bf70730, (-25));
(0x13b9442ae13a33, (-25));
(0x19c19ef87abfcd, (-26));
(0x1015c945fd2642, (-26));
(0x132ebf228b7139, (-27));
(0x15cc3bd7a0a089, (-28));
(0x178b5761ee528a, (-29));
(0x181a7c13441754, (-30));
(0x174ec82a3d1fdf, (-31));
(0x1533504380ad89, (-32));
(0x120c093cfda2ad, (-33));
(0x1c92cd683f0014, (-35));
(0x14ddf9f219620f, (-36));
(0x1bd2a29821d814, (-38));
(0x10b194c1ade80c, (-39));
(0x11aba34e7fa8a6, (-41));
(0x10019beb49954b, (-43));
(0x179923933d8a49, (-46));
(0x19b0c25315c2cd, (-49));
(0x10000000000000, (-52))];
[(0x1c000000000000, (-47));
(0x123085b5f14de8, (-44));
(0x131de1c3db1e44, (-42));
(0x113c12294680e9, (-40));
(0x1b86d0c16506a4, (-39));
(0x13de9432fe6a18, (-37));
(0x1a4a41f138e604, (-36));
(0x101a4863bfa67c, (-34));
(0x12672e28db0769, (-33));
(0x13bd526c8c64eb, (-32));
(0x13f7a1a757ce77, (-31));
(0x131f392ed39507, (-30));
(0x1164a2fea42941, (-29));
(0x1e224782bdd4fd, (-29));
(0x18eabd0e449119, (-28));
(0x13b456102f87b2, (-27));
(0x1ddab6dc61cccc, (-27));
(0x15b2211bc7029a, (-26));
(0x1e495e96d1b851, (-26));
(0x145304de37dbd8, (-25));
(0x1a3fa9607a122c, (-25));
(0x1052860c8e95ed, (-24));
(0x138f4d78a01ab6, (-24));
(0x169897709fd688, (-24));
(0x192c9899abfa08, (-24));
(0x1b0e36159683a2, (-24));
(0x1c0e2581c36009, (-24));
(0x1c126b9a8b269d, (-24));
(0x1b1a9cdbd5cd02, (-24));
(0x193fee8e6309a1, (-24));
(0x16b114963c2c56, (-24));
(0x13aad7380e5b56, (-24));
(0x106ef9c645b34c, (-24));
(0x1a7695fd8d5151, (-25));
(0x1485004a4cd9bc, (-25));
(0x1e9f9af08e6a89, (-26));
(0x15f8e2ab0bf496, (-26));
(0x1e495e96d1b851, (-27));
(0x1406e37c1a29c9, (-27));
(0x19604ea1b987ae, (-28));
(0x1ec215f3cd50b2, (-29));
(0x11cc3de59eb0c8, (-29));
(0x139f406cf2ae69, (-30));
(0x148e34fe64eaf0, (-31));
(0x1465925414e33b, (-32));
(0x131962f91c562f, (-33));
(0x10ccb31592b7ee, (-34));
(0x1b9ac53d488b1d, (-36));
(0x150834c0fa519c, (-37));
(0x1d71e37491a575, (-39));
(0x12b35e4e1ca017, (-40));
(0x152ca094c3ddb9, (-42));
(0x14cfc8a5c43b10, (-44));
(0x10fe1e036d703c, (-46));
(0x152a7fa9d2f8e9, (-49));
(0x10000000000000, (-52))];
[(0x10000000000000, (-52));
(0x1e3307cc56cf5b, (-50));
(0x13f9989320b7f7, (-47));
(0x1561c709864bb3, (-45));
(0x13a3fc558920c8, (-43));
(0x1ff8f7ba2fa8ac, (-42));
(0x1787f91d92e1a0, (-40));
(0x1fc1f90e8b6d4e, (-39));
(0x13d93ba9172451, (-37));
(0x17281aeff05509, (-36));
(0x195de9f5e905d3, (-35));
(0x1a37a5acca04f0, (-34));
(0x19aa5560ab4399, (-33));
(0x17e01f2deebd7c, (-32));
(0x1529d121168489, (-31));
(0x11ea842264e614, (-30));
(0x1d0701666a9511, (-30));
(0x168a1f6d382c0d, (-29));
(0x10cccbaaecbb21, (-28));
(0x1811c0d58d1b58, (-28));
(0x1096b2037c84d5, (-27));
(0x1604ed05459a5b, (-27));
(0x1c2ac7a05a4a5a, (-27));
(0x115f90bcfe07db, (-26));
(0x14ada961900a20, (-26));
(0x17c1f445c81dea, (-26));
(0x1a5b52868371de, (-26));
(0x1c3dde72da1a5e, (-26));
(0x1d3ba015b2a02e, (-26));
(0x1d3ba015b2a02e, (-26));
(0x1c3dde72da1a5e, (-26));
(0x1a5b52868371de, (-26));
(0x17c1f445c81dea, (-26));
(0x14ada961900a20, (-26));
(0x115f90bcfe07db, (-26));
(0x1c2ac7a05a4a5a, (-27));
(0x1604ed05459a5b, (-27));
(0x1096b2037c84d5, (-27));
(0x1811c0d58d1b58, (-28));
(0x10cccbaaecbb21, (-28));
(0x168a1f6d382c0d, (-29));
(0x1d0701666a9511, (-30));
(0x11ea842264e614, (-30));
(0x1529d121168489, (-31));
(0x17e01f2deebd7c, (-32));
(0x19aa5560ab4399, (-33));
(0x1a37a5acca04f0, (-34));
(0x195de9f5e905d3, (-35));
(0x17281aeff05509, (-36));
(0x13d93ba9172451, (-37));
(0x1fc1f90e8b6d4e, (-39));
(0x1787f91d92e1a0, (-40));
(0x1ff8f7ba2fa8ac, (-42));
(0x13a3fc558920c8, (-43));
(0x1561c709864bb3, (-45));
(0x13f9989320b7f7, (-47));
(0x1e3307cc56cf5b, (-50));
(0x10000000000000, (-52))]];
   [[(0x10000000000000, (-52))];
[(0x1b300000000000, (-44));
(0x1d7eea48fed23f, (-48));
(0x10000000000000, (-52))];
[(0x1eba4000000000, (-38));
(0x10aff77d98328c, (-40));
(0x1b27fed2569596, (-44));
(0x1d763b20d435ef, (-48));
(0x10000000000000, (-52))];
[(0x1ba7a000000000, (-33));
(0x16947d56de3518, (-35));
(0x1ea81aa45bc342, (-38));
(0x10a135d9c60824, (-40));
(0x1b0ffb452bedb0, (-44));
(0x1d64d51e0db1c5, (-48));
(0x10000000000000, (-52))];
[(0x1a7b5f80000000, (-29));
(0x1cee3514f0471e, (-31));
(0x1b8f00095b7a50, (-33));
(0x1673186bd607a0, (-35));
(0x1e71ca91420927, (-38));
(0x1083bf93017e41, (-40));
(0x1ae7f54bcf7cd4, (-44));
(0x1d4aa8b979af2e, (-48));
(0x10000000000000, (-52))];
[(0x1f436d30000000, (-26));
(0x15724e27b7c85d, (-27));
(0x1a5bb18d29c04d, (-29));
(0x1cb1f552ce4554, (-31));
(0x1b45774b9584f1, (-33));
(0x1630a71ad671ca, (-35));
(0x1e17afc629668f, (-38));
(0x1057aebe1c0f90, (-40));
(0x1aafecd09c2d3c, (-44));
(0x1d279e51208c8a, (-48));
(0x10000000000000, (-52))];
[(0x18de5cac000000, (-23));
(0x1497d93cdde2b5, (-24));
(0x1f14354f9cc689, (-26));
(0x153868cfb59cef, (-27));
(0x19fd50c991b9db, (-29));
(0x1c3a80fccd3c75, (-31));
(0x1acc0a39229f0e, (-33));
(0x15cdd9ebdfd9f4, (-35));
(0x1d9a6a4224b4f1, (-38));
(0x101d2aaa722e14, (-40));
(0x1a67e1b4314579, (-44));
(0x1cfb95bb9dcc0c, (-48));
(0x10000000000000, (-52))];
[(0x1c48dcbe000000, (-21));
(0x1b85d896f9d8ec, (-22));
(0x18b0b972c577b7, (-23));
(0x14532d6a7ebbb5, (-24));
(0x1e87e0483de37d, (-26));
(0x14c607b4554fa0, (-27));
(0x1962348f653fdf, (-29));
(0x1b89e9d332fcad, (-31));
(0x1a246790bd052a, (-33));
(0x154bb86493d332, (-35));
(0x1cfada03d6211e, (-38));
(0x1fa8d039f9f658, (-41));
(0x1a0fd3cc490531, (-44));
(0x1cc665b0328621, (-48));
(0x10000000000000, (-52))];
[(0x17fba5d6700000, (-19));
(0x1ae639b4a3575e, (-20));
(0x1c0b62e3901363, (-21));
(0x1b17f2336f3f2a, (-22));
(0x18296cfaada1c1, (-23));
(0x13cc01c032a056, (-24));
(0x1da25a25999520, (-26));
(0x141df38eea8e37, (-27));
(0x188d96e05bae0b, (-29));
(0x1aa33ef944b540, (-31));
(0x1950e35d583437, (-33));
(0x14ab9f7d989f0e, (-35));
(0x1c3a1f095b6a8e, (-38));
(0x1efb5342ab7542, (-41));
(0x19a7c2e217de3e, (-44));
(0x1c87dafcd266fd, (-48));
(0x10000000000000, (-52))];
[(0x1f459e83880000, (-18));
(0x13ed2010b38ad5, (-18));
(0x17bf0200830662, (-19));
(0x1a6852f2f513ae, (-20));
(0x1b5599a45968e2, (-21));
(0x1a407093b9f61c, (-22));
(0x174d3b97ee1a09, (-23));
(0x13069798c88a59, (-24));
(0x1c6a058144ec15, (-26));
(0x13443f9e1adf11, (-27));
(0x1783e13ed7ef84, (-29));
(0x198a7f4692ee0a, (-31));
(0x18546ff60e2786, (-33));
(0x13ef3f8f681924, (-35));
(0x1b599950316b89, (-38));
(0x1e327fe581edc6, (-41));
(0x192faeb0153521, (-44));
(0x1c3fb780c4f583, (-48));
(0x10000000000000, (-52))];
[(0x100c258d9a0000, (-16));
(0x16fbcf55b6b515, (-17));
(0x1eead0b66c3760, (-18));
(0x13817452228ae4, (-18));
(0x170c2c992141c8, (-19));
(0x197269463dc3f4, (-20));
(0x1a2f461b281ffc, (-21));
(0x1907b0197b9f12, (-22));
(0x1623d7db574ffa, (-23));
(0x120919650eafeb, (-24));
(0x1ae7829d19c5e6, (-26));
(0x123e2b57819d57, (-27));
(0x164a924de3ced6, (-29));
(0x1844873570c3aa, (-31));
(0x173294fe04db51, (-33));
(0x131899b2025998, (-35));
(0x1a5ae8d50c0382, (-38));
(0x1d4f150024263f, (-41));
(0x18a796df00ba73, (-44));
(0x1bedb0defaf661, (-48));
(0x10000000000000, (-52))];
[(0x1a65fd7fa80000, (-16));
(0x1511099cebdef6, (-16));
(0x1fae45b26313df, (-17));
(0x166e02b0edd683, (-17));
(0x1ddfc7a3d2edab, (-18));
(0x12b0045a072913, (-18));
(0x15ec2f642ea8c4, (-19));
(0x180fe231be5dd4, (-20));
(0x18a4d9467fff6b, (-21));
(0x1779add23b7afb, (-22));
(0x14b786d60a8560, (-23));
(0x10db5a7d849b1c, (-24));
(0x19256256c7ea46, (-26));
(0x1111fb29495070, (-27));
(0x14e81ca8048de3, (-29));
(0x16d6fa958a74f8, (-31));
(0x15ef646449e4b6, (-33));
(0x1229fc8993fc1c, (-35));
(0x193fed939e0801, (-38));
(0x1c51f01c3b19da, (-41));
(0x180f7b01e39812, (-44));
(0x1b916ed68964ec, (-48));
(0x10000000000000, (-52))];
[(0x11a591ce610000, (-15));
(0x1f2e1d150ad994, (-16));
(0x1a03757bd55719, (-16));
(0x147dd4d3044e56, (-16));
(0x1e776ae12b5ca5, (-17));
(0x155b638ad16516, (-17));
(0x1c342fa266bdb7, (-18));
(0x1184295c669034, (-18));
(0x146d62d5e4022d, (-19));
(0x1650e7cf2708f5, (-20));
(0x16c6b5b3228fea, (-21));
(0x15a566b3b6576c, (-22));
(0x1314a602089e49, (-23));
(0x1f0d0b6121d063, (-25));
(0x172fc77f2d26cf, (-26));
(0x1f8d928e5a500f, (-28));
(0x1363bf7ce7fe44, (-29));
(0x15482a3415dee0, (-31));
(0x148f6d63a0e7f9, (-33));
(0x1126007881af45, (-35));
(0x180ac7864aab40, (-38));
(0x1b3c0efb231844, (-41));
(0x17675a90af7e80, (-44));
(0x1b2a892946f435, (-48));
(0x10000000000000, (-52))];
[(0x1362605c010000, (-15));
(0x12dc84dd8c00be, (-15));
(0x115b818a8fa178, (-15));
(0x1e38c78709ba4e, (-16));
(0x18e37c798f0fd9, (-16));
(0x13620f47abce19, (-16));
(0x1c88a4efe6f502, (-17));
(0x13d514288c1aa7, (-17));
(0x1a00aec2030b6f, (-18));
(0x100dcd4d523e49, (-18));
(0x12a26a41ed84cc, (-19));
(0x14495ec072b72a, (-20));
(0x14a83bea0e1946, (-21));
(0x139c0fd8ca88f3, (-22));
(0x114918d454c5b3, (-23));
(0x1c297bd8c16b9e, (-25));
(0x1513f9c1f382f1, (-26));
(0x1cc89f7026471c, (-28));
(0x11c559a5e8e86f, (-29));
(0x139ef5b6301d85, (-31));
(0x1317ad82403045, (-33));
(0x100f832d63b6a3, (-35));
(0x16bdd6a5b658ec, (-38));
(0x1a0e917502bac9, (-41));
(0x16af34e0f1ab45, (-44));
(0x1ab884ef702283, (-48));
(0x10000000000000, (-52))];
[(0x11a4066c1c0000, (-15));
(0x12d4cfc412f1e3, (-15));
(0x13072fe9bd834e, (-15));
(0x1236153307c8f1, (-15));
(0x1083c9b6a6e324, (-15));
(0x1c623246d24f85, (-16));
(0x171c12ae62d3d1, (-16));
(0x11d1e1aa936b3d, (-16));
(0x1a0286bece6cca, (-17));
(0x11f2d1d879ab01, (-17));
(0x1764d6ae96cd84, (-18));
(0x1cc0669d1846ce, (-19));
(0x10a0e691fff2d4, (-19));
(0x120fa2cd94311b, (-20));
(0x125ead9da91f52, (-21));
(0x11703342137edc, (-22));
(0x1ec74a861f3a7c, (-24));
(0x19216a0c54e106, (-25));
(0x12dfedd9d7bcb1, (-26));
(0x19e55a1f537312, (-28));
(0x1015380168ea9c, (-29));
(0x11e2a9edd03fb2, (-31));
(0x118d7f91745bbb, (-33));
(0x1dd34502676f38, (-36));
(0x155bbae8279075, (-38));
(0x18cabbbbb5dbe8, (-41));
(0x15e7091bcc3f91, (-44));
(0x1a3ad12a1da160, (-48));
(0x10000000000000, (-52))];
[(0x1ac3e66f100000, (-16));
(0x1f414ba7b26c5d, (-16));
(0x11472cba3d3a5a, (-15));
(0x121aeda4de7055, (-15));
(0x11fe9470c4d6ca, (-15));
(0x10f88db5b6eca5, (-15));
(0x1e61ffa1262a6e, (-16));
(0x19d01dae29e6b1, (-16));
(0x14cf21419a179e, (-16));
(0x1fd1bea61e3acc, (-17));
(0x170e271cbfcce3, (-17));
(0x1fa1afd2e6c678, (-18));
(0x14848f157fb5ee, (-18));
(0x19210b6afb2c11, (-19));
(0x1cfff5bb6c9471, (-20));
(0x1f7644190c85d7, (-21));
(0x1ffff4ab80a3cc, (-22));
(0x1e697c971d2ec8, (-23));
(0x1ae68efba1147f, (-24));
(0x160a7a4160709d, (-25));
(0x10a1c747dd13c2, (-26));
(0x16f44ae2b78382, (-28));
(0x1cb7c009f9de83, (-30));
(0x101adbfe7a8dc4, (-31));
(0x1fed115a40e214, (-34));
(0x1b6f6d2e4887da, (-36));
(0x13e754409f50ec, (-38));
(0x1771f9171d182c, (-41));
(0x150ed62ffd3d2a, (-44));
(0x19b0c25315c2cd, (-48));
(0x10000000000000, (-52))];
[(0x10ff8258150000, (-16));
(0x15abc8e7ca4602, (-16));
(0x1a265d378556ad, (-16));
(0x1de89b70e791d3, (-16));
(0x103ad963aab8db, (-15));
(0x10ba610e964e94, (-15));
(0x106221c2913b0f, (-15));
(0x1e810c6f1ef46c, (-16));
(0x1afeeeddbb22cf, (-16));
(0x16b57950e70a28, (-16));
(0x1226bd7f54fc3e, (-16));
(0x1b8e6bff299a1a, (-17));
(0x13d94215ee82b3, (-17));
(0x1b1ada0a117b2f, (-18));
(0x118539dec7489b, (-18));
(0x156895f18fe888, (-19));
(0x18ad83c759d38a, (-20));
(0x1ac5e1c4bfbcfd, (-21));
(0x1b4313cad7a105, (-22));
(0x19f81ff8f0c2b7, (-23));
(0x170d0b5606bb87, (-24));
(0x12f9b31773b231, (-25));
(0x1cceb0472b9b19, (-27));
(0x1405c34d4628f4, (-28));
(0x1943af2ccf4aa2, (-30));
(0x1c9e8369a1d6a3, (-32));
(0x1cb1467613c87d, (-34));
(0x18fa96583ca05c, (-36));
(0x1263c29d81a100, (-38));
(0x1605df37641a6c, (-41));
(0x14269abe0d12a4, (-44));
(0x19198c8b8307c8, (-48));
(0x10000000000000, (-52))];
[(0x121e81d06e0000, (-17));
(0x193135e0815fed, (-17));
(0x108f8df16db755, (-16));
(0x14a0c829455de4, (-16));
(0x18612a6305e122, (-16));
(0x1b5f17b0ae7124, (-16));
(0x1d381ac60825ec, (-16));
(0x1dad4b23b9a4f2, (-16));
(0x1cb0b8db715f81, (-16));
(0x1a680249fa13e1, (-16));
(0x1723746bc4deb0, (-16));
(0x134c80b79dbeeb, (-16));
(0x1ea152aa102b4d, (-17));
(0x171d0371831cfc, (-17));
(0x109212dca05a47, (-17));
(0x168cbb28d120ce, (-18));
(0x1d15b12087fb3e, (-19));
(0x11bfc9681728b3, (-19));
(0x1475a8bcd7b608, (-20));
(0x1638e3343db14e, (-21));
(0x16ae324e50cff7, (-22));
(0x15ae2af866fdcd, (-23));
(0x1355994eb3473e, (-24));
(0x1002a8412f2688, (-25));
(0x187b47b912fd49, (-27));
(0x11295c729fedc0, (-28));
(0x15ded6b6b4fa08, (-30));
(0x190f0f07140953, (-32));
(0x19738fd3ace3dc, (-34));
(0x167c2ffee90f50, (-36));
(0x10d465e68cb98f, (-38));
(0x148832438f09fd, (-41));
(0x132e54fb9d675f, (-44));
(0x18743bde58000c, (-48));
(0x10000000000000, (-52))];
[(0x10389178c40000, (-18));
(0x1896c49b0c3514, (-18));
(0x1198b6ae52cae0, (-17));
(0x17d60d08812c7b, (-17));
(0x1e9e39efd69370, (-17));
(0x12ad45f24d00be, (-16));
(0x15aaf968e49ea9, (-16));
(0x17ed9bbb0a39a9, (-16));
(0x192bc69f21e8e4, (-16));
(0x193c46f92831ef, (-16));
(0x181eaa8267f332, (-16));
(0x15faf8630f6d94, (-16));
(0x1318c4b367bc73, (-16));
(0x1fa091d28c6401, (-17));
(0x18f354c178a144, (-17));
(0x12bd514961e89f, (-17));
(0x1ac6bd0631da09, (-18));
(0x122d4cb3b64c6b, (-18));
(0x176af128303283, (-19));
(0x1c94e999b2f3bf, (-20));
(0x107dfcbe4b0bce, (-20));
(0x11f4514c49aef1, (-21));
(0x12637888ce414d, (-22));
(0x11a9048799712d, (-23));
(0x1faf79f3632614, (-25));
(0x1a6d70605255ff, (-26));
(0x1460d3c944ceb5, (-27));
(0x1cdaf286bbe62c, (-29));
(0x1298e99fe125fa, (-30));
(0x159649534e1796, (-32));
(0x163fe95f228410, (-34));
(0x13fbf07143cd51, (-36));
(0x1e79bbf35daab5, (-39));
(0x12fae9d86f689b, (-41));
(0x12260288dedf5c, (-44));
(0x17bfa9c41ab040, (-48));
(0x10000000000000, (-52))];
[(0x185db677800000, (-20));
(0x1425c53de60968, (-19));
(0x1f63b56c2e4082, (-19));
(0x171ae1d577b570, (-18));
(0x101bf45dd1819f, (-17));
(0x1551d71aff119b, (-17));
(0x1ad294b5b79f09, (-17));
(0x100f9af54b7b87, (-16));
(0x1253dbd8343980, (-16));
(0x13f1bf873cfd8c, (-16));
(0x14b5a3604863c0, (-16));
(0x1486ed4356b529, (-16));
(0x136cff56639665, (-16));
(0x118d69ed769d4e, (-16));
(0x1e47e00f45a1a4, (-17));
(0x18ed4a82044995, (-17));
(0x1392a27e3daed8, (-17));
(0x1d4c78a3600ae7, (-18));
(0x14e23bf6ae761e, (-18));
(0x1c522c317d639e, (-19));
(0x123e460983ce2c, (-19));
(0x164ab2ec7fbf66, (-20));
(0x19c8f563f5914a, (-21));
(0x1c2b4bda73949f, (-22));
(0x1cfc5cd867a0f2, (-23));
(0x1c00c05c645ca3, (-24));
(0x194d6a2784d8c6, (-25));
(0x1548cc63bcd556, (-26));
(0x10937a6ad1b9ff, (-27));
(0x17bda2bd669500, (-29));
(0x1f00864f36b595, (-31));
(0x12425c32e3f0b8, (-32));
(0x1322238edf0ff9, (-34));
(0x1181c14cab7c19, (-36));
(0x1b42154be8b65b, (-39));
(0x116037401e0688, (-41));
(0x110da02fbb9ff3, (-44));
(0x16fa6ea162d0f0, (-48));
(0x10000000000000, (-52))];
[(0x1e9d2054800000, (-22));
(0x1ba8e7d15f2e95, (-21));
(0x17790f0af8bf7a, (-20));
(0x12c7836b98ac19, (-19));
(0x1c69f8dca0c9df, (-19));
(0x14606f8d11c047, (-18));
(0x1bc2bb6518c08a, (-18));
(0x11fe01ebc3face, (-17));
(0x1638643633badb, (-17));
(0x1a2c900a326c23, (-17));
(0x1d6eb41c4f19c9, (-17));
(0x1f9d91e71fcf22, (-17));
(0x103a6268e8c474, (-16));
(0x1fda38b4a7f619, (-17));
(0x1de33a2c43c083, (-17));
(0x1acfcd8c78a969, (-17));
(0x16fda9966a1699, (-17));
(0x12d665997bb93b, (-17));
(0x1d7ad18de0f7fd, (-18));
(0x16036cfa3f7e01, (-18));
(0x1f58787b28823a, (-19));
(0x154119c57b188e, (-19));
(0x1b69f421fa7e63, (-20));
(0x10c999f3238279, (-20));
(0x137c66c97a5b29, (-21));
(0x1563396d9f3672, (-22));
(0x162365469b467f, (-23));
(0x158ac1d472bb82, (-24));
(0x13a198787799fe, (-25));
(0x10adb32166f3e0, (-26));
(0x1a46b5c6b14db4, (-28));
(0x13101182257389, (-29));
(0x1942f5f6e7622a, (-31));
(0x1e40a33a479d8b, (-33));
(0x1025a95cad533c, (-34));
(0x1e2b52a33dcde2, (-37));
(0x180a1746421b63, (-39));
(0x1f751a8f538d38, (-42));
(0x1fca52fb9d0051, (-45));
(0x1622cd337f0fe8, (-48));
(0x10000000000000, (-52))];
[(0x10000f1d000000, (-23));
(0x1fadc87bb998fc, (-23));
(0x1d566f3a65e3fe, (-22));
(0x1988fe80b8d8f3, (-21));
(0x14f7837d23dd9b, (-20));
(0x104a6298bbffd7, (-19));
(0x1803a0e443e716, (-19));
(0x10d3547e794c93, (-18));
(0x16738a27177965, (-18));
(0x1c9145e5afc1fa, (-18));
(0x1159e330a1c658, (-17));
(0x1423f963706f18, (-17));
(0x165b04a7add820, (-17));
(0x17bdc7889b186e, (-17));
(0x1821c175bd08fe, (-17));
(0x177b5f31836465, (-17));
(0x15e01ffa695e08, (-17));
(0x1382267355f846, (-17));
(0x10a66fd98c8428, (-17));
(0x1b3087c3da6367, (-18));
(0x1539e21d36d613, (-18));
(0x1fa9f07e251191, (-19));
(0x168b28a534f17c, (-19));
(0x1e9b6f8a2ccc28, (-20));
(0x13c8c593794f3b, (-20));
(0x1850b4588684db, (-21));
(0x1c5b30c2bf1132, (-22));
(0x1f4ee861315c41, (-23));
(0x10520f39b36333, (-23));
(0x1004586f26ea31, (-24));
(0x1d7bd58633932b, (-26));
(0x195623b654d4b8, (-27));
(0x1438181c1ee8bb, (-28));
(0x1dc562ea808a1b, (-30));
(0x140e0495bcd547, (-31));
(0x18777170ff9cd8, (-33));
(0x1aaa8474f1f55e, (-35));
(0x197f662d3f1b22, (-37));
(0x14da810666d5cd, (-39));
(0x1c19548adfcd11, (-42));
(0x1d59303b454d63, (-45));
(0x1536948017480f, (-48));
(0x10000000000000, (-52))];
[(0x1b9a59f0000000, (-26));
(0x1e106747885cd6, (-25));
(0x1e7874e72bf427, (-24));
(0x1ce829b6a6ec60, (-23));
(0x19ca0a5c59b700, (-22));
(0x15b7ebcafdfbeb, (-21));
(0x11518f810beb55, (-20));
(0x1a383777df1391, (-20));
(0x12e18b69286a30, (-19));
(0x19e9fa4cc09adf, (-19));
(0x10f8bb49ea8944, (-18));
(0x153dae370134c8, (-18));
(0x196d192c0e9929, (-18));
(0x1d2204f7e23f87, (-18));
(0x1ff8577ee344b2, (-18));
(0x10ceea5bd9b519, (-17));
(0x10f09015e5eeca, (-17));
(0x105d84895ada5d, (-17));
(0x1e4fc2bd8d4973, (-18));
(0x1ae7c2ab338985, (-18));
(0x16e228c1ae3e5f, (-18));
(0x12a42213b458df, (-18));
(0x1d125c83d29c43, (-19));
(0x15af0872ba3e2f, (-19));
(0x1ee966f3bf59aa, (-20));
(0x1508635f234a07, (-20));
(0x1b4928c71b3b71, (-21));
(0x10d89a0d509b80, (-21));
(0x13c3299a8b3159, (-22));
(0x15fa2d79bf9e11, (-23));
(0x171bec37c3c9b0, (-24));
(0x16e7cc8e0f9afd, (-25));
(0x1552e65b0ac67a, (-26));
(0x12905cd416521b, (-27));
(0x1e1139132fe7d7, (-29));
(0x16813a013f5aad, (-30));
(0x1ee335982f7d7d, (-32));
(0x133c9a72486e29, (-33));
(0x15759ffe8241d5, (-35));
(0x150f9feff38f53, (-37));
(0x11bc91306d6520, (-39));
(0x18b34a4ff880d1, (-42));
(0x1ac7c5735a6f90, (-45));
(0x1432f24fb01c7a, (-48));
(0x10000000000000, (-52))];
[(0x136a5780000000, (-28));
(0x1767e24fc78944, (-27));
(0x1a1274957ffbe1, (-26));
(0x1b0a02b65b6e89, (-25));
(0x1a4325eb58f479, (-24));
(0x1800563838aa1a, (-23));
(0x14b7d3a01b8a39, (-22));
(0x10f1cac20a98d5, (-21));
(0x1a540c8f959eea, (-21));
(0x1378c3d8d5121e, (-20));
(0x1b77917892e431, (-20));
(0x1280b26833160c, (-19));
(0x17d69b97f4b617, (-19));
(0x1d6667a907ed34, (-19));
(0x115e8f884cf945, (-18));
(0x13ad026374fdb1, (-18));
(0x1560f5abf935cb, (-18));
(0x1649f472ea68fe, (-18));
(0x164d59ab4ab008, (-18));
(0x156b36fab40d90, (-18));
(0x13be3bff94feb1, (-18));
(0x1176a9840eb299, (-18));
(0x1da335450fd07b, (-19));
(0x181d87da6589f2, (-19));
(0x12cdf3e532a40e, (-19));
(0x1c156ed1d817ee, (-20));
(0x14106102f5f0f4, (-20));
(0x1b661f9a1d484f, (-21));
(0x11db1108a59813, (-21));
(0x162dcdd6b55fa2, (-22));
(0x1a34ca0c9cd696, (-23));
(0x1d6492fa78acab, (-24));
(0x1f3702d803e80c, (-25));
(0x1f4b79848e8eda, (-26));
(0x1d83c665c34410, (-27));
(0x1a132a85b72483, (-28));
(0x1577dc2161d63e, (-29));
(0x105e8dcaca2839, (-30));
(0x16f0371625220d, (-32));
(0x1d3e8c841e5a99, (-34));
(0x10be1189f05ccf, (-35));
(0x10eb6ccc917d2f, (-37));
(0x1d740b08d1cb89, (-40));
(0x1549fda6c07525, (-42));
(0x1815f5f3de59c7, (-45));
(0x13142b30a929ab, (-48));
(0x10000000000000, (-52))];
[(0x15e4da80000000, (-31));
(0x1d774f53aa64d2, (-30));
(0x1225ad9e49ea3c, (-28));
(0x14a9e493c0cdca, (-27));
(0x15eac7583f6abf, (-26));
(0x15c85238a728a9, (-25));
(0x146194fa1d7f78, (-24));
(0x1205b24d0b099a, (-23));
(0x1e37642a0ce11a, (-23));
(0x1813b511734427, (-22));
(0x12467a87ab8094, (-21));
(0x1a79e1e370be0e, (-21));
(0x1254a236c111a7, (-20));
(0x184a938b101e8f, (-20));
(0x1ed70064263870, (-20));
(0x12c5ab37dcd3aa, (-19));
(0x15edebe4f3c482, (-19));
(0x1898923091f94f, (-19));
(0x1a7f733914490b, (-19));
(0x1b6d89b52ac507, (-19));
(0x1b484422630cb1, (-19));
(0x1a144a245da2ca, (-19));
(0x17f490483230d5, (-19));
(0x1523f8d965ad5f, (-19));
(0x11eb136fef6459, (-19));
(0x1d28c9ffb861e5, (-20));
(0x16c38b195cba2e, (-20));
(0x1109a7b6255ffd, (-20));
(0x186dfca77a028a, (-21));
(0x10c2331ba0b0bc, (-21));
(0x15f8fc72da6a3b, (-22));
(0x1b7d58182aad3b, (-23));
(0x10613306d80aea, (-23));
(0x128e0134401370, (-24));
(0x13ee52d2db7eb9, (-25));
(0x143e42a6d056de, (-26));
(0x135fcd79b90703, (-27));
(0x1166c86388de30, (-28));
(0x1d30d3fa3ece40, (-30));
(0x16b996b7755c5a, (-31));
(0x104c025434aa72, (-32));
(0x1553657dd057b0, (-34));
(0x1924b29bfd8213, (-36));
(0x1a42e956aa7c28, (-38));
(0x17ba3422815912, (-40));
(0x11e573884b730d, (-42));
(0x15439346944aa5, (-45));
(0x11d5224aae2ee1, (-48));
(0x10000000000000, (-52))];
[(0x134d6c00000000, (-34));
(0x1d5e224b792741, (-33));
(0x142c8d1c9c8c34, (-31));
(0x1960b472c35b9f, (-30));
(0x1d866b1179cb13, (-29));
(0x1001888d3d1a57, (-27));
(0x1044ec4c652da7, (-26));
(0x1f27386edf2703, (-26));
(0x1c3412c0fb3662, (-25));
(0x1838440a9fecc2, (-24));
(0x13c80095e29a98, (-23));
(0x1ecca40fe3382e, (-23));
(0x16e5aec82ba0f4, (-22));
(0x1047fdc5fd6d3c, (-21));
(0x162cc1ef99c602, (-21));
(0x1cf508f7172ac0, (-21));
(0x122502f595e04d, (-20));
(0x15d6ace12b9e9f, (-20));
(0x194273853e46e2, (-20));
(0x1c1730ded8505d, (-20));
(0x1e0bb59c391ba2, (-20));
(0x1eeab425291820, (-20));
(0x1e9be6ff8d0ee3, (-20));
(0x1d2851970b1868, (-20));
(0x1ab8991ddbc01b, (-20));
(0x178dde2ea7095e, (-20));
(0x13f6caac6080d0, (-20));
(0x10435158d7da99, (-20));
(0x1973643c236b0f, (-21));
(0x131d7fe56d5d5e, (-21));
(0x1b8984718c4396, (-22));
(0x1300a10f37fa21, (-22));
(0x19182fd65bfccd, (-23));
(0x1faa08e80e67d2, (-24));
(0x130e28aaee72f9, (-24));
(0x15d550bd24186d, (-25));
(0x17c25f93e50c4a, (-26));
(0x187d1133e86973, (-27));
(0x17d3f6683e0d7a, (-28));
(0x15cd69d3c708d7, (-29));
(0x12aba30a0e5d59, (-30));
(0x1dc102fb00c217, (-32));
(0x15e6b099ffe7f7, (-33));
(0x1d82b2060924b8, (-35));
(0x11fadce2d5a619, (-36));
(0x137e77b095a8a8, (-38));
(0x12610ed3a1dffd, (-40));
(0x1d1dec262a006d, (-43));
(0x12504ce2896972, (-45));
(0x106e825da8fc2b, (-48));
(0x10000000000000, (-52))];
[(0x199ec000000000, (-38));
(0x16747b192311c4, (-36));
(0x116c7a578d71a0, (-34));
(0x186d478d3655d9, (-33));
(0x1f5e2463a762ac, (-32));
(0x12a29d84e62d87, (-30));
(0x14a4e3ff630c64, (-29));
(0x15732e76f7d3cb, (-28));
(0x1500e47c83ef91, (-27));
(0x1374f9f5c17362, (-26));
(0x111b46bf578777, (-25));
(0x1c9fee527fd210, (-25));
(0x16d767fa9355c6, (-24));
(0x116a9afbb5a325, (-23));
(0x196b8163d5a31e, (-23));
(0x11c758dcbfceb7, (-22));
(0x17dc811cbc0fd4, (-22));
(0x1ec1e74a2138a5, (-22));
(0x130dd490545e1a, (-21));
(0x16b4e84ae5f917, (-21));
(0x1a0a699206e3c2, (-21));
(0x1cc06b25caa9d9, (-21));
(0x1e9244baa3815c, (-21));
(0x1f4f8831a85c64, (-21));
(0x1ee41fc90f04de, (-21));
(0x1d5bbcffb43b87, (-21));
(0x1adfccb07ea70c, (-21));
(0x17b06c5d5566c4, (-21));
(0x1419ff9c764460, (-21));
(0x1069b0aeace61b, (-21));
(0x19c664bce330a2, (-22));
(0x13731b4e4554c7, (-22));
(0x1c2f693aaa17a4, (-23));
(0x13970eaf0caebe, (-23));
(0x1a178d2b1e3272, (-24));
(0x10a029fe8e7f7c, (-24));
(0x143d6f1d29e60b, (-25));
(0x177e6967b376bc, (-26));
(0x19f1ce81c0971d, (-27));
(0x1b2fc637bddf72, (-28));
(0x1af2cfc429fa9d, (-29));
(0x192cdc6d5c6451, (-30));
(0x1610ed514f2b5e, (-31));
(0x120c093cfda2ad, (-32));
(0x1b5b63dc338aec, (-34));
(0x130c88f02a000d, (-35));
(0x1818620a2d9385, (-37));
(0x1b42ba8ad2e95e, (-39));
(0x1afdf897269fc5, (-41));
(0x16a2e4f1234b28, (-43));
(0x1e7713ada69916, (-46));
(0x1daa2fefaae1d7, (-49));
(0x10000000000000, (-52))];
[(0x18100000000000, (-42));
(0x190feeec2fcec7, (-40));
(0x166372c269d3e9, (-38));
(0x11b6767d273219, (-36));
(0x1954242a579267, (-35));
(0x10984450d72b83, (-33));
(0x1420da7caf901b, (-32));
(0x16c5c9c7bf74b9, (-31));
(0x182d07b8e15b6a, (-30));
(0x1832e36226f1ba, (-29));
(0x16ed2aa8d70913, (-28));
(0x14a02d762f858b, (-27));
(0x11aae5ad254eb9, (-26));
(0x1ce23f98241115, (-26));
(0x1693035a756739, (-25));
(0x10e57b8b38b628, (-24));
(0x1841b4930f7666, (-24));
(0x10b7be7bd6271a, (-23));
(0x1625dbc8261240, (-23));
(0x1c3996e160387b, (-23));
(0x114ffe5bedeef3, (-22));
(0x1474c32ea66cce, (-22));
(0x174a9ed949f3fc, (-22));
(0x199084ad7b287c, (-22));
(0x1b0e36159683a2, (-22));
(0x1b9d08e6de2f40, (-22));
(0x1b2e38b83c9da4, (-22));
(0x19cd5cce934596, (-22));
(0x179e7460896af9, (-22));
(0x14d7fb287cc586, (-22));
(0x11ba58155f02a3, (-22));
(0x1d0cf3dc690b18, (-23));
(0x16eaf6a741ebf6, (-23));
(0x116572c9726ce1, (-23));
(0x196441dc29c4dd, (-24));
(0x11ccad906f6b1d, (-24));
(0x17f193a7f1ce8a, (-25));
(0x1edd10e49f0d1d, (-26));
(0x13083af94b25c2, (-26));
(0x166b2d4994ecb2, (-27));
(0x192b7fb99933c2, (-28));
(0x1ade5ee0e00fe4, (-29));
(0x1b313edbf1fa84, (-30));
(0x1a00394f2ad6e4, (-31));
(0x1764404d493801, (-32));
(0x13b304697a6779, (-33));
(0x1edce3baff0251, (-35));
(0x164ed01c7cdad4, (-36));
(0x1d71e37491a575, (-38));
(0x117e2c4dfcb734, (-39));
(0x125666a2b58de7, (-41));
(0x1073fb9fb966a4, (-43));
(0x1807feab1c4274, (-46));
(0x19ec474a261263, (-49));
(0x10000000000000, (-52))];
[(0x1c800000000000, (-47));
(0x12af54c02549ae, (-44));
(0x13d253d9c518f2, (-42));
(0x120a7ff0094fdf, (-40));
(0x1d186eda9a8655, (-39));
(0x1535ef9c676c4c, (-37));
(0x1c5973d26a7c83, (-36));
(0x118b37ca651b34, (-34));
(0x14431791f24a68, (-33));
(0x15f7e4f85e1304, (-32));
(0x1677978355ff22, (-31));
(0x15c2457023c106, (-30));
(0x14052b80af5e44, (-29));
(0x118c376a87a61b, (-28));
(0x1d5ef30d676d86, (-28));
(0x1783cd6d246dfa, (-27));
(0x120a5a0345c4b2, (-26));
(0x1a9027a6a99d79, (-26));
(0x12ca0460636dd6, (-25));
(0x199098db322437, (-25));
(0x10be029af9068d, (-24));
(0x152015b843b7c3, (-24));
(0x19b209b4a6b6da, (-24));
(0x1e24c587909911, (-24));
(0x110f4556e3a1f4, (-23));
(0x12a313d06e4a68, (-23));
(0x13a7c69cbade29, (-23));
(0x1403b0213d33e0, (-23));
(0x13ad91c8cee688, (-23));
(0x12ae1bdac1a7e2, (-23));
(0x111e83b1cc0bd1, (-23));
(0x1e490032b338e9, (-24));
(0x19d913b9f40ca9, (-24));
(0x154722055702a2, (-24));
(0x10e2b5ebbe0321, (-24));
(0x19d1e1a852c428, (-25));
(0x13013363ce91d0, (-25));
(0x1ae90cb0d676f7, (-26));
(0x124eaeee53c05b, (-26));
(0x17e823af98a753, (-27));
(0x1debb4824e3ffc, (-28));
(0x11ea842264e614, (-28));
(0x147dc756bf3a8d, (-29));
(0x16555dcd66d369, (-30));
(0x17226b289d22f9, (-31));
(0x16b474fa949ce5, (-32));
(0x1508780e04408d, (-33));
(0x124e94244e652e, (-34));
(0x1dc5d97da2b67a, (-36));
(0x1674c24abedb24, (-37));
(0x1f20f7a5ca4272, (-39));
(0x13943fa410b2bc, (-40));
(0x15f57579831cee, (-42));
(0x1561c709864bb3, (-44));
(0x114c810886c6a5, (-46));
(0x155aaa002a9d59, (-49));
(0x10000000000000, (-52))];
[(0x10000000000000, (-52));
(0x1e768d399dc46f, (-50));
(0x14541bf0f8681c, (-47));
(0x15f514900fe038, (-45));
(0x145ae184359daa, (-43));
(0x10b92cf0281513, (-41));
(0x18da0651478bed, (-40));
(0x10eefd35adebc4, (-38));
(0x1560a7cd6d575b, (-37));
(0x19319619ebddcd, (-36));
(0x1be2624c03c2b7, (-35));
(0x1d1fcc8467ec52, (-34));
(0x1cd1b9bdbae071, (-33));
(0x1b1b0baa80c128, (-32));
(0x184c4f30ef33eb, (-31));
(0x14cec132a92263, (-30));
(0x110e3bb915b340, (-29));
(0x1acee42d663502, (-29));
(0x143ad7fac66d1d, (-28));
(0x1d5a419476d30d, (-28));
(0x147e8b39871701, (-27));
(0x1b919303edab1d, (-27));
(0x11e04e23c7150e, (-26));
(0x165d5a8737cb9c, (-26));
(0x1b02057843b415, (-26));
(0x1f7f10b0c711eb, (-26));
(0x11bdee2c95a8a6, (-25));
(0x1350a0a31089d6, (-25));
(0x1452c785415907, (-25));
(0x14abb8e35fffec, (-25));
(0x1452c785415907, (-25));
(0x1350a0a31089d6, (-25));
(0x11bdee2c95a8a6, (-25));
(0x1f7f10b0c711eb, (-26));
(0x1b02057843b415, (-26));
(0x165d5a8737cb9c, (-26));
(0x11e04e23c7150e, (-26));
(0x1b919303edab1d, (-27));
(0x147e8b39871701, (-27));
(0x1d5a419476d30d, (-28));
(0x143ad7fac66d1d, (-28));
(0x1acee42d663502, (-29));
(0x110e3bb915b340, (-29));
(0x14cec132a92263, (-30));
(0x184c4f30ef33eb, (-31));
(0x1b1b0baa80c128, (-32));
(0x1cd1b9bdbae071, (-33));
(0x1d1fcc8467ec52, (-34));
(0x1be2624c03c2b7, (-35));
(0x19319619ebddcd, (-36));
(0x1560a7cd6d575b, (-37));
(0x10eefd35adebc4, (-38));
(0x18da0651478bed, (-40));
(0x10b92cf0281513, (-41));
(0x145ae184359daa, (-43));
(0x15f514900fe038, (-45));
(0x14541bf0f8681c, (-47));
(0x1e768d399dc46f, (-50));
(0x10000000000000, (-52))]];
   [[(0x1e000000000000, (-48));
(0x10000000000000, (-52))];
[(0x118f0000000000, (-40));
(0x1c1bffb724490f, (-44));
(0x1dfbbb6e049232, (-48));
(0x10000000000000, (-52))];
[(0x18950000000000, (-35));
(0x106cafff3d2b79, (-37));
(0x11877e65423e7e, (-40));
(0x1c0bfd6ed063fd, (-44));
(0x1deeea11683f49, (-48));
(0x10000000000000, (-52))];
[(0x104bec00000000, (-30));
(0x1e92d1e6bebb2f, (-33));
(0x18836ab625df6c, (-35));
(0x1059eff91eac92, (-37));
(0x1170fff8a9409c, (-40));
(0x1bebf8d64f04c1, (-44));
(0x1dd980e67d1d1a, (-48));
(0x10000000000000, (-52))];
[(0x1902bdc0000000, (-27));
(0x1e48827a14295e, (-29));
(0x103b8064e6c496, (-30));
(0x1e5e3b449dec0e, (-33));
(0x184ed7e313066e, (-35));
(0x10348fecb7599e, (-37));
(0x114b97ee206b1a, (-40));
(0x1bbbf1dda90943, (-44));
(0x1dbb6d5ce3a42e, (-48));
(0x10000000000000, (-52))];
[(0x18de5cac000000, (-24));
(0x127ee4173843a9, (-25));
(0x18e2108f6f341e, (-27));
(0x1e02964ab22e47, (-29));
(0x100a83f98f8769, (-30));
(0x1df5c1ffe28f8c, (-33));
(0x17f7ce664ed93d, (-35));
(0x1ff99fb360bbe9, (-38));
(0x1117666533a508, (-40));
(0x1b7be86c3d7dd9, (-44));
(0x1d949505f8b2b8, (-48));
(0x10000000000000, (-52))];
[(0x11377b3c000000, (-21));
(0x1e752b513c9afe, (-23));
(0x18b637e2a3dcda, (-24));
(0x124905be47dc10, (-25));
(0x1880ce5b57996f, (-27));
(0x1d7826974a42fe, (-29));
(0x1f739186fad88c, (-31));
(0x1d5acc1794ca1d, (-33));
(0x177f2e342bf2ab, (-35));
(0x1f661f7f03c20e, (-38));
(0x10d49897534fbc, (-40));
(0x1b2bdc5fe3ef4b, (-44));
(0x1d64d51e0db1c5, (-48));
(0x10000000000000, (-52))];
[(0x117132ca800000, (-19));
(0x11eff36df855c4, (-20));
(0x11163294438208, (-21));
(0x1e097e3cfc984f, (-23));
(0x183f03f037d71a, (-24));
(0x11debe1241a062, (-25));
(0x17e141bb526dae, (-27));
(0x1cabfcad6ee028, (-29));
(0x1e9551ca0fde08, (-31));
(0x1c8f6d8a359782, (-33));
(0x16e62f13b13650, (-35));
(0x1eaf9f3ad7851c, (-38));
(0x1083691a20df4e, (-40));
(0x1acbcd8bae77a0, (-44));
(0x1d2c01eb6e9763, (-48));
(0x10000000000000, (-52))];
[(0x1acdf595500000, (-18));
(0x1f8513fba155dc, (-19));
(0x1149abc2604b1b, (-19));
(0x11a4ee75ad5d8b, (-20));
(0x10b39ab504b4c8, (-21));
(0x1d35d0a65acc2f, (-23));
(0x177c63b702915b, (-24));
(0x1142ea9899f5c0, (-25));
(0x17072a1e2dff12, (-27));
(0x1ba2328a9d987d, (-29));
(0x1d7e019686e882, (-31));
(0x1b966255b06f82, (-33));
(0x162e5ed81e3886, (-35));
(0x1dd75ee4d5dc62, (-38));
(0x1024203762f239, (-40));
(0x1a5bbbb6354700, (-44));
(0x1ce9e5ec2bda7f, (-48));
(0x10000000000000, (-52))];
[(0x100c258d9a0000, (-16));
(0x154ee8f4e1f22f, (-17));
(0x1a87d50e17bfb0, (-18));
(0x1eebea14221196, (-19));
(0x10d4e0c562892d, (-19));
(0x1111fff9904fc6, (-20));
(0x1013697cd770af, (-21));
(0x1c01514bb145d5, (-23));
(0x16743dfd3ae0aa, (-24));
(0x1079b8addd7fb3, (-25));
(0x15f7a0e7d1ff9a, (-27));
(0x1a601b40cdd858, (-29));
(0x1c324e30a0e907, (-31));
(0x1a730677468dcd, (-33));
(0x15599f125ac990, (-35));
(0x1cdede7a5484a8, (-38));
(0x1f6e28b9b5614e, (-41));
(0x19dba6974b7275, (-44));
(0x1c9e40c8fdbe80, (-48));
(0x10000000000000, (-52))];
[(0x1e910a93d00000, (-16));
(0x16b1cbf8fba61b, (-16));
(0x1fb86ddc3a92b3, (-17));
(0x14d82ad920728b, (-17));
(0x19b92c31107083, (-18));
(0x1dc1179762dddd, (-19));
(0x1018134eaadfd7, (-19));
(0x103d31a7b8cdb8, (-20));
(0x1e773077e1f9d7, (-22));
(0x1a765e4b2e2ac2, (-23));
(0x152e820ce847c9, (-24));
(0x1f110301dd3617, (-26));
(0x14b8f4b2790303, (-27));
(0x18ec2411d95d0b, (-29));
(0x1ab7c4b568e152, (-31));
(0x19294beb72459a, (-33));
(0x146a2235616d68, (-35));
(0x1bc7ddf7db0797, (-38));
(0x1e79554dddba05, (-41));
(0x194b8dd4eee02b, (-44));
(0x1c48c6001f0abf, (-48));
(0x10000000000000, (-52))];
[(0x17876d132c0000, (-15));
(0x1363aae8b69b3c, (-15));
(0x1e29a7980c42f3, (-16));
(0x1622253c243e03, (-16));
(0x1e9eb5a3493d7c, (-17));
(0x13f17149d451a5, (-17));
(0x186cdd53b02000, (-18));
(0x1c131a8d29547c, (-19));
(0x1e374f84cfde31, (-20));
(0x1e5e4799836a8d, (-21));
(0x1c682c3995710b, (-22));
(0x18a20dd6ac486f, (-23));
(0x13b4d7def039f2, (-24));
(0x1ceb37ac03601d, (-26));
(0x13527b94a5a057, (-27));
(0x174daec1bdd569, (-29));
(0x1914b94ed824c0, (-31));
(0x17bdaeadc009f6, (-33));
(0x136268274a65ac, (-35));
(0x1a945d58e83051, (-38));
(0x1d6aaf14101b7a, (-41));
(0x18ab70ff311610, (-44));
(0x1be91b364d1879, (-48));
(0x10000000000000, (-52))];
[(0x1da584507a0000, (-15));
(0x1af4b3944b1cf5, (-15));
(0x172dd6c4158f39, (-15));
(0x12d93c85313612, (-15));
(0x1cfab9d03edab1, (-16));
(0x150c38d26d1b72, (-16));
(0x1cdc3c1bc5c4f5, (-17));
(0x12a7b445e32d4d, (-17));
(0x16b4233e794dfa, (-18));
(0x19f66f0779313c, (-19));
(0x1bd53eba19249f, (-20));
(0x1be521c2f0cb32, (-21));
(0x1a0cc3276303e5, (-22));
(0x16939811118be9, (-23));
(0x12123efdbf5c65, (-24));
(0x1a904a1ab00f05, (-26));
(0x11cc5d899f1778, (-27));
(0x158ce5bfb6d221, (-29));
(0x17502a635ce535, (-31));
(0x163526b899c015, (-33));
(0x12453a36f9c9e4, (-35));
(0x19469c97a03982, (-38));
(0x1c433f3f3cadf4, (-41));
(0x17fb4f8ab91707, (-44));
(0x1b7ed6159fadc7, (-48));
(0x10000000000000, (-52))];
[(0x1edf0b3d310000, (-15));
(0x1ed439a802ea3d, (-15));
(0x1d26f94ed746ed, (-15));
(0x1a1cb83d1ce54b, (-15));
(0x16282c38c7c57b, (-15));
(0x11cea3f045555b, (-15));
(0x1b1935e1ddcf9c, (-16));
(0x1381e50f1ad198, (-16));
(0x1a8bd47ab660db, (-17));
(0x110d1427406274, (-17));
(0x14a549140d8795, (-18));
(0x17842aa9dec84e, (-19));
(0x1923d43096fab2, (-20));
(0x192768456aaa6a, (-21));
(0x177a1d0d96c130, (-22));
(0x145ba9441bb880, (-23));
(0x1052a0088f3e6e, (-24));
(0x180f8673714594, (-26));
(0x102f58539427eb, (-27));
(0x13b28ae62ebb1d, (-29));
(0x1571a001e138d1, (-31));
(0x14951804ff5879, (-33));
(0x1115a66c83cecc, (-35));
(0x17e11bac595468, (-38));
(0x1b04313ae6d635, (-41));
(0x173b28c951d79f, (-44));
(0x1b097998c4bf81, (-48));
(0x10000000000000, (-52))];
[(0x1ac3e66f100000, (-15));
(0x1d40fafa1c9789, (-15));
(0x1e4bb7ed3eae66, (-15));
(0x1dbff6df1d9db2, (-15));
(0x1bb6a051976a36, (-15));
(0x187ed2aa36ecb1, (-15));
(0x148ae308ffb8a4, (-15));
(0x10574b99ed7af0, (-15));
(0x18a5aaaed72c56, (-16));
(0x119bd7f9529a42, (-16));
(0x17cfb799401564, (-17));
(0x1e6ecdccc5f428, (-18));
(0x125a0811d3232f, (-18));
(0x14d84eb130cbd6, (-19));
(0x163f39e26c2788, (-20));
(0x163f39e26c2788, (-21));
(0x14c67ffa5a355f, (-22));
(0x120ba4d694f42f, (-23));
(0x1d04aab9e2361a, (-25));
(0x1578c4b14cad0f, (-26));
(0x1d08fcc7feac0f, (-28));
(0x11c7c1b184cdf4, (-29));
(0x138107d76711c4, (-31));
(0x12e3408a253d1f, (-33));
(0x1fadf4500af9bf, (-36));
(0x16669a8cf67e1e, (-38));
(0x19aed4fecee010, (-41));
(0x166afbdfb3f778, (-44));
(0x1a887293fd6f34, (-48));
(0x10000000000000, (-52))];
[(0x136d2740180000, (-15));
(0x172deb6981d3eb, (-15));
(0x1a354a4ed5a29d, (-15));
(0x1c1c68ed664773, (-15));
(0x1ca077111e6e94, (-15));
(0x1bb16075da3b5e, (-15));
(0x1974d4909262f8, (-15));
(0x163ce979e52a17, (-15));
(0x12757189335e4f, (-15));
(0x1d1b5c8354cabb, (-16));
(0x15c9029a2dad87, (-16));
(0x1eee91a37ff53a, (-17));
(0x14ce9b1a1bac81, (-17));
(0x1a7d063fb6c394, (-18));
(0x1fdb5f5daf98a2, (-19));
(0x120ff284aa06a4, (-19));
(0x134435e2d77e8d, (-20));
(0x1346f3f0ee62a0, (-21));
(0x120839c9fc467e, (-22));
(0x1f69c48f6a1948, (-24));
(0x195b5fc5915b84, (-25));
(0x12dbddf0a40449, (-26));
(0x19a9e50f79137e, (-28));
(0x1fababdb4a1990, (-30));
(0x11868e0840394e, (-31));
(0x1125a43ced54e8, (-33));
(0x1d1977ffa6ed1f, (-36));
(0x14da192bf7542b, (-38));
(0x1844a1dde96609, (-41));
(0x158ac7b74ca3e1, (-44));
(0x19fb1339d2c7df, (-48));
(0x10000000000000, (-52))];
[(0x17b1bd73060000, (-16));
(0x1ecfc7bab9648e, (-16));
(0x12f99ce1b2b655, (-15));
(0x162b6c5e962b68, (-15));
(0x189964b7937fe3, (-15));
(0x19f1fc4d2d55d8, (-15));
(0x1a0744674f1ffe, (-15));
(0x18d8b74698e8f4, (-15));
(0x1692cbe3bf6874, (-15));
(0x138498aab85b9f, (-15));
(0x100ebf2ef716fe, (-15));
(0x19211edb9c5d65, (-16));
(0x12b08aac428057, (-16));
(0x1a66b4852f7123, (-17));
(0x11b080ba59aebf, (-17));
(0x1674e4a53bf698, (-18));
(0x1af681eff5c539, (-19));
(0x1e8ed7876bdf85, (-20));
(0x104e808dda53f4, (-20));
(0x1057cf53d97781, (-21));
(0x1ea91f660cb149, (-23));
(0x1acfdbd00a7ddf, (-24));
(0x15c0fa8315fde8, (-25));
(0x104821868e389b, (-26));
(0x1653447f11f1eb, (-28));
(0x1bcbfff4da5e1a, (-30));
(0x1f14e6aa31d683, (-32));
(0x1ec4ee1e527cfe, (-34));
(0x1a754996998be2, (-36));
(0x133ed777140732, (-38));
(0x16c739ede33432, (-41));
(0x149a8aea133159, (-44));
(0x19608d3c41fb4b, (-48));
(0x10000000000000, (-52))];
[(0x1854da35260000, (-17));
(0x1139dded1e661e, (-16));
(0x1714490f41452c, (-16));
(0x1d5087c51eb836, (-16));
(0x11ad66ee4917cd, (-15));
(0x1444b824148e31, (-15));
(0x161d5b5d66f814, (-15));
(0x16fa55edf008b9, (-15));
(0x16bf3718013648, (-15));
(0x1575f30ae694ca, (-15));
(0x134c51499bdd10, (-15));
(0x1089cc2f3214ee, (-15));
(0x1b01c3349cde0b, (-16));
(0x14ffbd7a3b9839, (-16));
(0x1f13737c6633bc, (-17));
(0x15dcded59ce4ba, (-17));
(0x1d3721fac03d3e, (-18));
(0x12836af54de8eb, (-18));
(0x16374d265d7de7, (-19));
(0x1931312d3169b7, (-20));
(0x1aee79f26e8669, (-21));
(0x1b11359ec12bee, (-22));
(0x197d86e6a2c732, (-23));
(0x1667ae10fc8bff, (-24));
(0x124b29beada9b6, (-25));
(0x1b979e173efd0a, (-27));
(0x131601a4d13a88, (-28));
(0x18024fcdad0dc9, (-30));
(0x1b29c207938ab2, (-32));
(0x1b4009dd1486db, (-34));
(0x17c92f86245b28, (-36));
(0x11985555219a03, (-38));
(0x15386e2e634117, (-41));
(0x139a43a558df0f, (-44));
(0x18b7e9fe051728, (-48));
(0x10000000000000, (-52))];
[(0x150b1d95c00000, (-18));
(0x10389178c40000, (-17));
(0x179fd145310113, (-17));
(0x104a8deca68b2e, (-16));
(0x1551d71aff119b, (-16));
(0x1a841a656da3b4, (-16));
(0x1f6225612815fa, (-16));
(0x11b115e4526010, (-15));
(0x130423cdbdd241, (-15));
(0x137f53cb6ec0d0, (-15));
(0x131382b45b2eec, (-15));
(0x11d04b08dea4ac, (-15));
(0x1fc0e431a7d644, (-16));
(0x1b01c3349cde0b, (-16));
(0x15e977cd75d67e, (-16));
(0x10f35643daa7da, (-16));
(0x18fc6c61d7e0d4, (-17));
(0x11877ac9a68b25, (-17));
(0x1762a20d6fe2d8, (-18));
(0x1d9f11887ca7df, (-19));
(0x11c85ef2b977cd, (-19));
(0x1432db75d2e4cf, (-20));
(0x15a75e189a898b, (-21));
(0x15d94f0ed4aabd, (-22));
(0x14ae794ac1bc4e, (-23));
(0x124b29beada9b6, (-24));
(0x1e19c3bc44b6f3, (-26));
(0x16e7352c2e463c, (-27));
(0x10018a891e0930, (-28));
(0x145f5185aea806, (-30));
(0x175b762b362a72, (-32));
(0x17c92f86245b28, (-34));
(0x151d3332f51f37, (-36));
(0x1fd4a54594e1a2, (-39));
(0x139a43a558df0f, (-41));
(0x1289ef7e83d15e, (-44));
(0x18000000000000, (-48));
(0x10000000000000, (-52))];
[(0x1e9d2054800000, (-20));
(0x19b69814b107bf, (-19));
(0x145b3865b6d0cd, (-18));
(0x1e7877505825dc, (-18));
(0x159cdd9a3d1cc7, (-17));
(0x1d1d9a79695461, (-17));
(0x12a79c379f2f68, (-16));
(0x16c4dde1034d32, (-16));
(0x1a7fcd7a7e8280, (-16));
(0x1d6eb41c4f19c9, (-16));
(0x1f37c28d54ac32, (-16));
(0x1fa262d785e24a, (-16));
(0x1ea27aa79e777e, (-16));
(0x1c5a976be6fe1c, (-16));
(0x19147fee36ebba, (-16));
(0x1532500ab0bdf3, (-16));
(0x111c28d3b27038, (-16));
(0x1a5e14698d051b, (-17));
(0x1361186c894478, (-17));
(0x1b25653a09e1b1, (-18));
(0x1218ee26b14121, (-18));
(0x16efa42b074439, (-19));
(0x1b95adfc84dd55, (-20));
(0x1f6b8e4580f225, (-21));
(0x10e88b7e3c7338, (-21));
(0x1125f21d70832f, (-22));
(0x1055c58b3a8b5f, (-23));
(0x1d1e29b279b2aa, (-25));
(0x182b61faf8bc80, (-26));
(0x12948096c6be20, (-27));
(0x1a46b5c6b14db4, (-29));
(0x10f22b4fc80d0a, (-30));
(0x13b8e2d1b1860e, (-32));
(0x146cb6d972bb73, (-34));
(0x12798ccc967b50, (-36));
(0x1c719e5a9bb064, (-39));
(0x11eef9ba12323b, (-41));
(0x11698b311e50fa, (-44));
(0x173764417dc14d, (-48));
(0x10000000000000, (-52))];
[(0x12aabc4c800000, (-21));
(0x111d1637661a54, (-20));
(0x1d7c454a62b593, (-20));
(0x17f4f84c703388, (-19));
(0x126a279a62743f, (-18));
(0x1ad941f1b282b4, (-18));
(0x1299eebb618253, (-17));
(0x188985e31b8fac, (-17));
(0x1edb3cd9f05a96, (-17));
(0x1284538280710c, (-16));
(0x153adfbd45f277, (-16));
(0x1744b4c871d279, (-16));
(0x186453240fe9d0, (-16));
(0x1876f85bdce884, (-16));
(0x177b5f31836465, (-16));
(0x1591cc319924f8, (-16));
(0x12f5710c392f5d, (-16));
(0x1fe1f1fea3f9b3, (-17));
(0x19a273703e0f4b, (-17));
(0x13b26e257d1b96, (-17));
(0x1ce7ad2c207418, (-18));
(0x143bc60549eade, (-18));
(0x1afe346b3025cd, (-19));
(0x112238953c8efe, (-19));
(0x14a9fb4a02d059, (-20));
(0x17a1534cf48e54, (-21));
(0x1990250f05e091, (-22));
(0x1a1716fba92236, (-23));
(0x190ac6643be9e7, (-24));
(0x1684c0e5603cae, (-25));
(0x12e27ba24bc7fa, (-26));
(0x1d60b0c37dd9e6, (-28));
(0x150d224dc0d1ce, (-29));
(0x1b90085f98407c, (-31));
(0x104fa0f5ffbde5, (-32));
(0x11367f7f8adf04, (-34));
(0x1fcd18d88f7f6a, (-37));
(0x19101553987145, (-39));
(0x10391237117382, (-41));
(0x10391237117382, (-44));
(0x165c55827df1d1, (-48));
(0x10000000000000, (-52))];
[(0x12fa1dd5000000, (-23));
(0x130b49107b7898, (-22));
(0x11e29e0267d16d, (-21));
(0x1f95d0b17f154c, (-21));
(0x1a522de93f3c6a, (-20));
(0x14c3a7022d05b2, (-19));
(0x1f17b5b64e799e, (-19));
(0x1623d55a665790, (-18));
(0x1e0a1f50c4cc6f, (-18));
(0x137183ee3c761b, (-17));
(0x180b09536197cb, (-17));
(0x1c6d64a69e27c8, (-17));
(0x1014b71a639a52, (-16));
(0x116b56ffe6d46c, (-16));
(0x1212e28266c2ca, (-16));
(0x11f79e9647b56d, (-16));
(0x111d80a4747c0a, (-16));
(0x1f3e94087256af, (-17));
(0x1b528dc44e7d78, (-17));
(0x16e228c1ae3e5f, (-17));
(0x1258fa09e7424b, (-17));
(0x1c260911b6ddae, (-18));
(0x14a46d0cfd917f, (-18));
(0x1cea4f562bd137, (-19));
(0x1351e05857980a, (-19));
(0x1898566615107e, (-20));
(0x1dc7acc51c0e9d, (-21));
(0x111d5cfe907c2a, (-21));
(0x12a1d2fc3dfc0f, (-22));
(0x1329395794e4d4, (-23));
(0x128e385af508d5, (-24));
(0x10dba3a569e225, (-25));
(0x1c9be1f5cd95dc, (-27));
(0x168ceace63ede1, (-28));
(0x10672debf2a9f3, (-29));
(0x15d73dc9613d6e, (-31));
(0x1a574a717b3d35, (-33));
(0x1c6361fb72601b, (-35));
(0x1ad8fffd5175a9, (-37));
(0x15b9094c8c5979, (-39));
(0x1cf6b710bb21f7, (-42));
(0x1df0fc3e1ed32d, (-45));
(0x156c9df5e1f2da, (-48));
(0x10000000000000, (-52))];
[(0x1fe58fc0000000, (-26));
(0x1197eed30b48b2, (-24));
(0x1210f67eacd7ab, (-23));
(0x115ef1ca15886d, (-22));
(0x1f6cd3452d5a3d, (-22));
(0x1ad79f206c126a, (-21));
(0x15b7ebcafdfbeb, (-20));
(0x10b0492e0bd2f2, (-19));
(0x1868bbd0e72ca1, (-19));
(0x1104e5f0753c06, (-18));
(0x16a93ec7f55a0b, (-18));
(0x1cd89facd2e1e2, (-18));
(0x1191e32277981f, (-17));
(0x147fcd872432e9, (-17));
(0x16ebf033c45e82, (-17));
(0x18935a83acee8f, (-17));
(0x1945f1d6f09401, (-17));
(0x18ef3f66599c54, (-17));
(0x179a3558b5333a, (-17));
(0x156efabaed2ec6, (-17));
(0x12ab56c1e80386, (-17));
(0x1f2f53473ed136, (-18));
(0x18f6361af482fa, (-18));
(0x1323297b10cad1, (-18));
(0x1c156ed1d817ee, (-19));
(0x13b3d2f1cc5894, (-19));
(0x1a66fa7d473955, (-20));
(0x10df407bbb450c, (-20));
(0x1488a007cba46b, (-21));
(0x17c05b4b5f9d42, (-22));
(0x1a0dd274d4cbcf, (-23));
(0x1b086b2acfb03f, (-24));
(0x1a72ee91c100a5, (-25));
(0x18501a7a6b5fa7, (-26));
(0x14e80a1fcec263, (-27));
(0x10ba56eae18611, (-28));
(0x18bf859e6fa760, (-30));
(0x10ca057ba846fd, (-31));
(0x14adca1beae92d, (-33));
(0x16d0ed43f285f0, (-35));
(0x16272aa2cd5ace, (-37));
(0x1275f8dd007656, (-39));
(0x1971fc260a8e29, (-42));
(0x1b4f8ad56cf64e, (-45));
(0x1465655f122ff6, (-48));
(0x10000000000000, (-52))];
[(0x15e4da80000000, (-28));
(0x1ab640ce5edfc5, (-27));
(0x1e1f471923f061, (-26));
(0x1fa27622c4bc53, (-25));
(0x1f1fd5226c1fad, (-24));
(0x1cd2c66fdd0499, (-23));
(0x19386da1e16406, (-22));
(0x14ea950726bf9e, (-21));
(0x107c007ce780d4, (-20));
(0x18beb0a4ca4796, (-20));
(0x11b83463b525eb, (-19));
(0x183fc5540459f5, (-19));
(0x1fbfe14119dcdf, (-19));
(0x13e8339a468049, (-18));
(0x17ee0cbdf87a71, (-18));
(0x1b98079391b036, (-18));
(0x1e8a10f9c1cc10, (-18));
(0x1039ff7359b059, (-17));
(0x108fa803acada6, (-17));
(0x103c7840a12023, (-17));
(0x1e94a4bd0c5769, (-18));
(0x1ba9464522f7dd, (-18));
(0x1806c9c76e158d, (-18));
(0x140881bd527853, (-18));
(0x1006ce310ec6a9, (-18));
(0x1896775b09db65, (-19));
(0x12123bdf0a876d, (-19));
(0x196d5b21519821, (-20));
(0x111aaaab08a5eb, (-20));
(0x15f8fc72da6a3b, (-21));
(0x1ae92c43eab998, (-22));
(0x1f5d5d8ae2b5e7, (-23));
(0x115b38f8cf5f1c, (-23));
(0x1231c34848bf06, (-24));
(0x1202f32fb93de4, (-25));
(0x10c750a943d1e6, (-26));
(0x1d4a844a85628c, (-28));
(0x17d589dde744fc, (-29));
(0x11f7352d7151be, (-30));
(0x18e4d962bdd1cc, (-32));
(0x1f640394bce593, (-34));
(0x11c76ebe05111e, (-35));
(0x11c76ebe05111e, (-37));
(0x1ea1c360b87550, (-40));
(0x15eb1be632c59b, (-42));
(0x188db306f0d555, (-45));
(0x1342e881f15cc1, (-48));
(0x10000000000000, (-52))];
[(0x1820c700000000, (-31));
(0x106ba3e0000000, (-29));
(0x1475cf989fd186, (-28));
(0x1792e9baa1b0fe, (-27));
(0x194ec4e89d6375, (-26));
(0x197722bf12a58d, (-25));
(0x18219445d6ce44, (-24));
(0x159e14d3e5c372, (-23));
(0x125d9595e39584, (-22));
(0x1dac00e0d3e7e4, (-22));
(0x16d767fa9355c6, (-21));
(0x10c9750024e08d, (-20));
(0x1797fe43e88ee1, (-20));
(0x1fbfe14119dcdf, (-20));
(0x1479cead4fd468, (-19));
(0x195667d8344568, (-19));
(0x1e1a36cf87a8f5, (-19));
(0x112da98c7d02c9, (-18));
(0x12d7ff5caa3825, (-18));
(0x13df966acf36c8, (-18));
(0x1427c16ab65cdd, (-18));
(0x13a8b30bd1139f, (-18));
(0x1270d9836ca53e, (-18));
(0x10a23cec8749ff, (-18));
(0x1cd90cbeb43263, (-19));
(0x180a35499629fd, (-19));
(0x133e1aa04a7f2d, (-19));
(0x1d92336cf9f4e1, (-20));
(0x15cb72aed83940, (-20));
(0x1ec9999a42c441, (-21));
(0x14d0ef29709a88, (-21));
(0x1ae92c43eab998, (-22));
(0x109ad72b68f6e3, (-22));
(0x1386a017e94aff, (-23));
(0x15d550bd24186d, (-24));
(0x17285d3d5be1dc, (-25));
(0x173b5bfe0f22a2, (-26));
(0x15f7e337e409e9, (-27));
(0x13802afb60212b, (-28));
(0x102b4975b2c991, (-29));
(0x18e4d962bdd1cc, (-31));
(0x11a84203aa4123, (-32));
(0x16dbd78698ccdd, (-34));
(0x1aab261d0799ad, (-36));
(0x1b91963d72cffb, (-38));
(0x18a87f62f91e4e, (-40));
(0x126a464534a000, (-42));
(0x15ab45922f8859, (-45));
(0x12000000000000, (-48));
(0x10000000000000, (-52))];
[(0x14d0fc00000000, (-34));
(0x100135e8154751, (-32));
(0x163a91fb39ff7f, (-31));
(0x1c4645b65b80f7, (-30));
(0x10a2a03fd15cc7, (-28));
(0x123f3a3ccc0c94, (-27));
(0x12c4c8a818d951, (-26));
(0x123086887b0889, (-25));
(0x10ac7b5270c7d3, (-24));
(0x1d016ca13e154a, (-24));
(0x1800a82a86fb86, (-23));
(0x12f069be85809f, (-22));
(0x1c8d41f9382b37, (-22));
(0x1497ae91ad1e00, (-21));
(0x1c75b5d3b509c6, (-21));
(0x12dd325b5cb655, (-20));
(0x1802905db7dc94, (-20));
(0x1d5d3dcbf58c3f, (-20));
(0x1143d1210664e2, (-19));
(0x1387cf2d852ad1, (-19));
(0x15431a58e57fd1, (-19));
(0x1648530a16aa08, (-19));
(0x167bb73974b2c4, (-19));
(0x15d7e362768794, (-19));
(0x146ebb82f85613, (-19));
(0x126646da47e201, (-19));
(0x1fe47acfafcc02, (-20));
(0x1a9784200e83f5, (-20));
(0x155227d790bd92, (-20));
(0x106daacac3c0ef, (-20));
(0x184fe221d6a9f9, (-21));
(0x114284d2b446a1, (-21));
(0x177cd7b0e313b4, (-22));
(0x1e9877e4c8b834, (-23));
(0x130c0c689f4636, (-23));
(0x16a104f5280d73, (-24));
(0x199a0da15b3b5e, (-25));
(0x1b84b3262410d5, (-26));
(0x1c05f89bfa27de, (-27));
(0x1af2cfc429fa9d, (-28));
(0x186035ba382976, (-29));
(0x14a4165e84bf6c, (-30));
(0x104471ba76832e, (-31));
(0x17b11d1cceaabc, (-33));
(0x1f96d17bbe38fb, (-35));
(0x130c88f02a000d, (-36));
(0x14720be81e2f06, (-38));
(0x1316165f4e940a, (-40));
(0x1df1ecb2b395a9, (-43));
(0x12a7f0900e3230, (-45));
(0x1095479c7e6580, (-48));
(0x10000000000000, (-52))];
[(0x1b120000000000, (-38));
(0x17f7261acbcc9b, (-36));
(0x12c9862e32aaf3, (-34));
(0x1a9d7e16c7c782, (-33));
(0x1145bc80a6275b, (-31));
(0x14bf7095410dee, (-30));
(0x173e00aefffd6d, (-29));
(0x186d2aba505105, (-28));
(0x1832e36226f1ba, (-27));
(0x16afb52c04829e, (-26));
(0x143100e56608cd, (-25));
(0x111b46bf578777, (-24));
(0x1ba774311a0294, (-24));
(0x155dbf64025e5a, (-23));
(0x1f9c3ca89e7397, (-23));
(0x166b1491357851, (-22));
(0x1e85b5393c10fc, (-22));
(0x13f6bdccdb79f3, (-21));
(0x191d03e87589d3, (-21));
(0x1e6653321fe5e2, (-21));
(0x11b72b5724d960, (-20));
(0x13e38e7ac6baec, (-20));
(0x1584086b1683c8, (-20));
(0x166ee93726465f, (-20));
(0x168bd7bca8185c, (-20));
(0x15d7e362768794, (-20));
(0x1465ff62012d19, (-20));
(0x125bcc3e9aa896, (-20));
(0x1fd6d882c3aa75, (-21));
(0x1a9784200e83f5, (-21));
(0x156172eafd70dd, (-21));
(0x108a1dbe7852d2, (-21));
(0x189a208a1a6548, (-22));
(0x1193996e8df8cd, (-22));
(0x1819c56a9f0de3, (-23));
(0x1facaafbad9db1, (-24));
(0x13ec1dbcff361b, (-24));
(0x17f2c1640baece, (-25));
(0x1b750708e09049, (-26));
(0x1df54c3855f274, (-27));
(0x1f067550501bcf, (-28));
(0x1e66e8bc346896, (-29));
(0x1c158b21aa9449, (-30));
(0x1858c4f9e52495, (-31));
(0x13b304697a6779, (-32));
(0x1d8c869e379b36, (-34));
(0x145d3c302bd69c, (-35));
(0x198000bffffd2d, (-37));
(0x1c90d37442817f, (-39));
(0x1c02d0dbc0c544, (-41));
(0x1744a4b2972ea1, (-43));
(0x1f0630ee1ee8d6, (-46));
(0x1deeea11683f49, (-49));
(0x10000000000000, (-52))];
[(0x18f00000000000, (-42));
(0x1a38b451cad942, (-40));
(0x17a6e77dbb1211, (-38));
(0x12e5e62f804ea9, (-36));
(0x1b4c1399f238bc, (-35));
(0x1211bc87a1eab2, (-33));
(0x1625e27c633146, (-32));
(0x1953dd766edd02, (-31));
(0x1b2f36db687cda, (-30));
(0x1b843b8cd8cccd, (-29));
(0x1a5eb911a5199a, (-28));
(0x1800dce5c40bff, (-27));
(0x14cf1d090fe3f5, (-26));
(0x11385ff6c2f6f5, (-25));
(0x1b422b3deae366, (-25));
(0x14aafc88ce0962, (-24));
(0x1e1140b01ef27e, (-24));
(0x1501c339b9307a, (-23));
(0x1c390a20d24e5a, (-23));
(0x123e9241438908, (-22));
(0x16b7435b4326db, (-22));
(0x1b411015232f2f, (-22));
(0x1f866496084cb5, (-22));
(0x1195ae04bdd1cf, (-21));
(0x12ed0d500dca8f, (-21));
(0x13a7c69cbade29, (-21));
(0x13b2feb5f7271d, (-21));
(0x130d9b0ced4376, (-21));
(0x11c86e94992de6, (-21));
(0x100377850e476f, (-21));
(0x1bd19600eb9335, (-22));
(0x174c8d7acb28e0, (-22));
(0x12cea1796f4b2d, (-22));
(0x1d3f278909d9e1, (-23));
(0x15e3ccb6c47cdb, (-23));
(0x1f8405cf563f22, (-24));
(0x15ccc49b2ed489, (-24));
(0x1cf24c07681bda, (-25));
(0x126be25610ac7b, (-25));
(0x1670c761baaffd, (-26));
(0x1a1df0527c2e59, (-27));
(0x1cfaa6bdffab29, (-28));
(0x1e94d38e2c3bb7, (-29));
(0x1e9a9f95580445, (-30));
(0x1cf17535b341aa, (-31));
(0x19c299caaa47e6, (-32));
(0x15778028e33bea, (-33));
(0x10a4be52162d17, (-34));
(0x17d17acae891fb, (-36));
(0x1f20f7a5ca4272, (-38));
(0x1250877cbb483c, (-39));
(0x13045381e9c4b1, (-41));
(0x10e766ac5e042b, (-43));
(0x1876d9b85a0f96, (-46));
(0x1a2744ce9674f4, (-49));
(0x10000000000000, (-52))];
[(0x1d000000000000, (-47));
(0x132f4532a6621c, (-44));
(0x148a0a0795f197, (-42));
(0x12de9dabcda4b0, (-40));
(0x1eb9058cb56253, (-39));
(0x169d87a40584d2, (-37));
(0x1e870342ec4500, (-36));
(0x1315527a29c116, (-34));
(0x1644aecb51e5a9, (-33));
(0x18661602834a60, (-32));
(0x1938e9479b5f3a, (-31));
(0x18b2646b72cd3e, (-30));
(0x16fadcb2cd88c9, (-29));
(0x145fe350848dc2, (-28));
(0x1140b62f0b91b5, (-27));
(0x1bf5d39c134636, (-27));
(0x15b793cf6f44ab, (-26));
(0x103118f110e981, (-25));
(0x17348a85eda8df, (-25));
(0x1fff29f8f56cd7, (-25));
(0x153e39e92621e7, (-24));
(0x1b2f24fdf83bfd, (-24));
(0x10c603e569d8b5, (-23));
(0x13f8fcdd643622, (-23));
(0x16f4eb0c9ff2ab, (-23));
(0x197ad9d3809c77, (-23));
(0x1b50c25e834567, (-23));
(0x1c49f65fe6739b, (-23));
(0x1c4dfd33a27e7e, (-23));
(0x1b5c74c2faf1be, (-23));
(0x198d2098af1e18, (-23));
(0x170c23ffbec28f, (-23));
(0x14133741ca2db3, (-23));
(0x10e1436b2a508d, (-23));
(0x1b6418f51bb7f4, (-24));
(0x156ecc16eacdcb, (-24));
(0x1029dea4d8c9b9, (-24));
(0x177aabcbcbd4a1, (-25));
(0x106898ce70bb19, (-25));
(0x160b8398d4fa07, (-26));
(0x1c6f320b3ceb3a, (-27));
(0x11949c3a3580bb, (-27));
(0x14cec132a92263, (-28));
(0x1786c9e30fc6b1, (-29));
(0x195ae1fdccc72a, (-30));
(0x19fa31232b2032, (-31));
(0x1938e9479b5f3a, (-32));
(0x171ed5d6f9174b, (-33));
(0x13ead87f706683, (-34));
(0x10087dda120184, (-35));
(0x17f299b26697f3, (-37));
(0x10701572cdfdc5, (-38));
(0x147b590878ec37, (-40));
(0x16c1f125dbb121, (-42));
(0x15f514900fe038, (-44));
(0x119ae4068085ef, (-46));
(0x158a68a4a8d9f3, (-49));
(0x10000000000000, (-52))];
[(0x10000000000000, (-52));
(0x1eb97e455b9edb, (-50));
(0x14ae9f47026304, (-47));
(0x1689ae45e06cfb, (-45));
(0x15150aca880785, (-43));
(0x117afdaee15af4, (-41));
(0x1a387c8652086e, (-40));
(0x12098ece6251a2, (-38));
(0x16fe411ef46a36, (-37));
(0x1b5e0b477b4cf1, (-36));
(0x1e98fed1900201, (-35));
(0x10250a29b0bd06, (-33));
(0x10250a29b0bd06, (-32));
(0x1eb2a139350562, (-32));
(0x1bd27cf3b8c1c2, (-31));
(0x18184170cd3ee1, (-30));
(0x13fa72879d8d5c, (-29));
(0x1fc614af17b860, (-29));
(0x184481bf63d3c4, (-28));
(0x11d304260e98be, (-27));
(0x19351453c893cf, (-27));
(0x112d084dd673d3, (-26));
(0x1692d530df3e62, (-26));
(0x1ca18bc2ea6cc3, (-26));
(0x11886972625d82, (-25));
(0x14bec2b57e611e, (-25));
(0x17b9164a3913ec, (-25));
(0x1a3a0ce57f247d, (-25));
(0x1c099f2c2e804e, (-25));
(0x1cfcffefa33d6b, (-25));
(0x1cfcffefa33d6b, (-25));
(0x1c099f2c2e804e, (-25));
(0x1a3a0ce57f247d, (-25));
(0x17b9164a3913ec, (-25));
(0x14bec2b57e611e, (-25));
(0x11886972625d82, (-25));
(0x1ca18bc2ea6cc3, (-26));
(0x1692d530df3e62, (-26));
(0x112d084dd673d3, (-26));
(0x19351453c893cf, (-27));
(0x11d304260e98be, (-27));
(0x184481bf63d3c4, (-28));
(0x1fc614af17b860, (-29));
(0x13fa72879d8d5c, (-29));
(0x18184170cd3ee1, (-30));
(0x1bd27cf3b8c1c2, (-31));
(0x1eb2a139350562, (-32));
(0x10250a29b0bd06, (-32));
(0x10250a29b0bd06, (-33));
(0x1e98fed1900201, (-35));
(0x1b5e0b477b4cf1, (-36));
(0x16fe411ef46a36, (-37));
(0x12098ece6251a2, (-38));
(0x1a387c8652086e, (-40));
(0x117afdaee15af4, (-41));
(0x15150aca880785, (-43));
(0x1689ae45e06cfb, (-45));
(0x14ae9f47026304, (-47));
(0x1eb97e455b9edb, (-50));
(0x10000000000000, (-52))]];
   [[(0x10000000000000, (-52))];
[(0x1d100000000000, (-44));
(0x1e7ef3644c3931, (-48));
(0x10000000000000, (-52))];
[(0x118f0000000000, (-37));
(0x1271c781e285ef, (-40));
(0x1d07fee5d23c3a, (-44));
(0x1e768d399dc46f, (-48));
(0x10000000000000, (-52))];
[(0x10e67000000000, (-32));
(0x1aafcefba09fd6, (-35));
(0x11854d526236dd, (-37));
(0x126285ec08ba67, (-40));
(0x1ceffb93a08f77, (-44));
(0x1e65b9edeba38d, (-48));
(0x10000000000000, (-52))];
[(0x1150aac0000000, (-28));
(0x1249980d518be8, (-30));
(0x10d85e24afc37e, (-32));
(0x1a8ae6467a7c34, (-35));
(0x11684549752e02, (-37));
(0x12440f544947b5, (-40));
(0x1cc7f5fe5350dc, (-44));
(0x1e4c6b77882ab7, (-48));
(0x10000000000000, (-52))];
[(0x15e26608000000, (-25));
(0x1d04b54988d238, (-27));
(0x113d4f6e338083, (-28));
(0x1225fdf1323eec, (-30));
(0x10ae5725d4fdd4, (-32));
(0x1a4170611a5ffc, (-35));
(0x113817e4fce4fc, (-37));
(0x12167cf3cefb39, (-40));
(0x1c8fee1306237d, (-44));
(0x1e2a8c7e4a7c85, (-48));
(0x10000000000000, (-52))];
[(0x12a6c581000000, (-22));
(0x1dd7a268000000, (-24));
(0x15c387f7269daa, (-25));
(0x1cbb846255d631, (-27));
(0x11039e121f1afd, (-28));
(0x11df5d5f643488, (-30));
(0x1068e63cb07bfd, (-32));
(0x19d423d77b577a, (-35));
(0x10f51524920b86, (-37));
(0x11d9f4cbe3d62e, (-40));
(0x1c47e3b665d4bd, (-44));
(0x1e000000000000, (-48));
(0x10000000000000, (-52))];
[(0x16c02bfd000000, (-20));
(0x15607fdcfc0b09, (-21));
(0x1286d536fc9219, (-22));
(0x1d7ab8e09d32da, (-24));
(0x1567bca1b3ab55, (-25));
(0x1c2acde5bc7b98, (-27));
(0x10a4b66323938f, (-28));
(0x1176db42a9a930, (-30));
(0x1008f1c8aacf21, (-32));
(0x1944113ffa1c83, (-35));
(0x109fad079cbffb, (-37));
(0x118ea9db4b7134, (-40));
(0x1befd6c3bf34c7, (-44));
(0x1dcca0d0cbf408, (-48));
(0x10000000000000, (-52))];
[(0x14b66c50780000, (-18));
(0x166b6daa690b6b, (-19));
(0x16921402ca3c47, (-20));
(0x1510df7a121620, (-21));
(0x1228126ab55af3, (-22));
(0x1cc3a4a9fb8089, (-24));
(0x14d169e79f4659, (-25));
(0x1b55dcee2e8499, (-27));
(0x10227100f9c004, (-28));
(0x10ee290a6f644b, (-30));
(0x1f1f719e9dcff7, (-33));
(0x1892a1bdeba432, (-35));
(0x10386f8d4c9542, (-37));
(0x1134dc674d60c3, (-40));
(0x1b87c70baf0139, (-44));
(0x1d9040f230cfdf, (-48));
(0x10000000000000, (-52))];
[(0x1d09ca0c6c0000, (-17));
(0x11d82308a2b5f5, (-17));
(0x1485aa05fb56df, (-18));
(0x1609a546f8ab42, (-19));
(0x1609a546f8ab42, (-20));
(0x147486439452fa, (-21));
(0x118d9b8b1e9fcd, (-22));
(0x1bb7c8be6588f8, (-24));
(0x140478b994249c, (-25));
(0x1a41858f2ecf31, (-27));
(0x1efeaa69ab9387, (-29));
(0x10477d96d5f94f, (-30));
(0x1dfd9ef8840e77, (-33));
(0x17c1950082cedd, (-35));
(0x1f8019691a5280, (-38));
(0x10ccda5a302c00, (-40));
(0x1b0fb4525ba789, (-44));
(0x1d4aa8b979af2e, (-48));
(0x10000000000000, (-52))];
[(0x100c258d9a0000, (-15));
(0x1625c7f57d9343, (-16));
(0x1cbb662d15d2e1, (-17));
(0x117e66ccc0c353, (-17));
(0x13f5b3649ce07e, (-18));
(0x154a58f3da890f, (-19));
(0x152c515a033d0e, (-20));
(0x13911ebb22e1cb, (-21));
(0x10bc7c9a4a6ee2, (-22));
(0x1a5ef7d0ba81be, (-24));
(0x13063486550a05, (-25));
(0x18f403442156fc, (-27));
(0x1d7d15a2ca5699, (-29));
(0x1f0b17bcba54c6, (-31));
(0x1cb0354270dc83, (-33));
(0x16d2feb9f154b4, (-35));
(0x1e6ea8f7ec70f1, (-38));
(0x1056ffb97f5ae6, (-40));
(0x1a879e4d17a66c, (-44));
(0x1cfb95bb9dcc0c, (-48));
(0x10000000000000, (-52))];
[(0x1c7b8409bc0000, (-15));
(0x15e1e087ab5bc1, (-15));
(0x1fb5e41fd8b315, (-16));
(0x15a6cdfe2740c4, (-16));
(0x1bd48cdce696b3, (-17));
(0x10cf843b96cc82, (-17));
(0x130d5198de1afa, (-18));
(0x1435cf30cd8526, (-19));
(0x1402d5a8a014ca, (-20));
(0x126ecf0d343b43, (-21));
(0x1f76edea17de47, (-23));
(0x18c3282c95c9a7, (-24));
(0x11dd1f05baf86a, (-25));
(0x1774cd63192cf2, (-27));
(0x1bc790d34e6c06, (-29));
(0x1d56eebffff92e, (-31));
(0x1b3b946bcbe935, (-33));
(0x15c943896fedc4, (-35));
(0x1d3e6dc36b2c8d, (-38));
(0x1fa76e6e647b3e, (-41));
(0x19ef849f3d42a0, (-44));
(0x1ca2b9714180f6, (-48));
(0x10000000000000, (-52))];
[(0x14967f70c68000, (-14));
(0x117dc4331659be, (-14));
(0x1c1909a984be90, (-15));
(0x155408ccc8ddf5, (-15));
(0x1e94e7ae5b8b73, (-16));
(0x14b0554f4321a5, (-16));
(0x1a61dd9a68e650, (-17));
(0x1fa8a386177ac7, (-18));
(0x11d7531fa8699e, (-18));
(0x12d7d04dc8fae3, (-19));
(0x1298c12ca08776, (-20));
(0x1117d2ec49aae6, (-21));
(0x1d256c7d122b1b, (-23));
(0x16f012c97853fe, (-24));
(0x1090b9bdef6a07, (-25));
(0x15cc629810156c, (-27));
(0x19e67c4d3fa48c, (-29));
(0x1b798cf33cfd2a, (-31));
(0x19a4a5afd285e2, (-33));
(0x14a715516cbddd, (-35));
(0x1bf187c6e15712, (-38));
(0x1e86f5c36452c5, (-41));
(0x194766d5ffefa5, (-44));
(0x1c3fb780c4f583, (-48));
(0x10000000000000, (-52))];
[(0x1883f2563d8000, (-14));
(0x16e930b8eb2f96, (-14));
(0x1446a31d78a2cf, (-14));
(0x10fe5b9f8dc604, (-14));
(0x1af8ac89275c8e, (-15));
(0x1441e0843a246b, (-15));
(0x1cc76d13e6207d, (-16));
(0x1350b150151c3c, (-16));
(0x187746ff09ac4d, (-17));
(0x1d3285bacea6bc, (-18));
(0x1061d4fce196f6, (-18));
(0x113ef132a8a77f, (-19));
(0x10fbd3cb000a00, (-20));
(0x1f2ff80d5d7261, (-22));
(0x1a96ebc9a6dfc2, (-23));
(0x14f2c1500b3960, (-24));
(0x1e528dee446ffc, (-26));
(0x14040ca91c57af, (-27));
(0x17e2fb27c807c7, (-29));
(0x197aa57fc44c90, (-31));
(0x17f0cc955fc85b, (-33));
(0x136f6ef1761594, (-35));
(0x1a8a56fc33e0bc, (-38));
(0x1d4da9efcf2736, (-41));
(0x188f4462d1c555, (-44));
(0x1bd22395cd344d, (-48));
(0x10000000000000, (-52))];
[(0x184188d4a68000, (-14));
(0x18d534b489a39e, (-14));
(0x1819a2e1d7ac99, (-14));
(0x162e78be95d40f, (-14));
(0x135d85531f832b, (-14));
(0x1009379ccb4f04, (-14));
(0x192ee41c67df3f, (-15));
(0x12bd868a2ab692, (-15));
(0x1a69c3f5fbe764, (-16));
(0x119bd7f9529a42, (-16));
(0x162e79b0839f30, (-17));
(0x1a5b08baab963d, (-18));
(0x1d7aada420ce81, (-19));
(0x1ef76b53a45a63, (-20));
(0x1e7682706cc7a3, (-21));
(0x1bf83fe8736a6a, (-22));
(0x17df36e64c1d67, (-23));
(0x12d90f893fa8c5, (-24));
(0x1b5f08412e23a3, (-26));
(0x12259dfcff2b89, (-27));
(0x15c6bd95ff010b, (-29));
(0x17626ef4daef87, (-31));
(0x1625d5eea10e70, (-33));
(0x12258f597f014a, (-35));
(0x190b7b5b69ff97, (-38));
(0x1bfcc1cfeca599, (-41));
(0x17c71c93ce05c0, (-44));
(0x1b597ea47fdda2, (-48));
(0x10000000000000, (-52))];
[(0x1412ecd34c0000, (-14));
(0x16717e306de592, (-14));
(0x17cc346cac30f4, (-14));
(0x17f36f0e1e3132, (-14));
(0x16e45c64858d7d, (-14));
(0x14c8f83d318fa8, (-14));
(0x11edc5bc17bd7e, (-14));
(0x1d613a523f589c, (-15));
(0x16db6a1c761dfb, (-15));
(0x10dfeef9bcd585, (-15));
(0x179fe82a6ec487, (-16));
(0x1f53724b02a794, (-17));
(0x13a4f13a5d360d, (-17));
(0x1743d78cf344e2, (-18));
(0x19f757d6a9e19a, (-19));
(0x1b3f32efc4e5f8, (-20));
(0x1acdc606e0e8e1, (-21));
(0x18a2f70d6dd1ea, (-22));
(0x151294f3ec2e7d, (-23));
(0x10b12544014f9a, (-24));
(0x1858bfdb052bc9, (-26));
(0x103b2a92037286, (-27));
(0x139bc6eb648d63, (-29));
(0x15397cda6adc00, (-31));
(0x1449e4d8af0988, (-33));
(0x10ccf3e9b8de97, (-35));
(0x1777d4da01ec09, (-38));
(0x1a9599029b23e6, (-41));
(0x16eeee8953be07, (-44));
(0x1ad5336963eefb, (-48));
(0x10000000000000, (-52))];
[(0x1bece86c228000, (-15));
(0x110277e67bb87a, (-14));
(0x13a6b99f22df2f, (-14));
(0x158e3eec3076ae, (-14));
(0x167820d3091552, (-14));
(0x1645729bb5d64f, (-14));
(0x14ffc93f67b506, (-14));
(0x12d689cf120881, (-14));
(0x1013f7f558acab, (-14));
(0x1a1ac94a034b34, (-15));
(0x1425f8aa9f007e, (-15));
(0x1d8d064f93de96, (-16));
(0x1492573390cd71, (-16));
(0x1b289b0bbbdff5, (-17));
(0x10f9c1366eeb01, (-17));
(0x140fa145ec5b52, (-18));
(0x165dbbe6f81e3e, (-19));
(0x177822858da157, (-20));
(0x171cccf8629ec9, (-21));
(0x154a28195a1715, (-22));
(0x1244ee6a45e3b2, (-23));
(0x1d11dc52870e2b, (-25));
(0x15515d4d963d97, (-26));
(0x1c9d7c8588afc1, (-28));
(0x116c305e0916c9, (-29));
(0x1308963ceb859b, (-31));
(0x12635dbaff78f3, (-33));
(0x1ed2a41e9c0372, (-36));
(0x15d28369f7fd13, (-38));
(0x1919b2cab5f573, (-41));
(0x1606b9278cfb5f, (-44));
(0x1a4491e34f47d9, (-48));
(0x10000000000000, (-52))];
[(0x10607f2d9e8000, (-15));
(0x15b4fa78ab4409, (-15));
(0x1b452b10fa0f39, (-15));
(0x1042c3b38ee2bc, (-14));
(0x126e60c66f90f9, (-14));
(0x13dff537790032, (-14));
(0x14673dae167335, (-14));
(0x13f34c2f63c6f3, (-14));
(0x1295e65501805d, (-14));
(0x107f3b843e822d, (-14));
(0x1be6a6036da829, (-15));
(0x1678991fc57c3a, (-15));
(0x113a53430656b5, (-15));
(0x1920d6774abcd9, (-16));
(0x116a9ef696acd1, (-16));
(0x16eb1d4acdac7b, (-17));
(0x1c96b42776f3be, (-18));
(0x10dfd0c3f18cbd, (-18));
(0x12d02de1d0c16e, (-19));
(0x13c3299a8b3159, (-20));
(0x138106de24b77c, (-21));
(0x12063e8e80a16b, (-22));
(0x1f11f4fca0a57c, (-24));
(0x18db2a63b3b797, (-25));
(0x1259beacba33bf, (-26));
(0x18d424c05c0d90, (-28));
(0x1e83d36cb9610c, (-30));
(0x10d8899fd44a6b, (-31));
(0x1078cf469d4a25, (-33));
(0x1bfd2015390940, (-36));
(0x141ee6f855d165, (-38));
(0x178abd8bace9f6, (-41));
(0x150e7b01ebcb5c, (-44));
(0x19a6c96759af48, (-48));
(0x10000000000000, (-52))];
[(0x10389178c40000, (-16));
(0x17607cdf800094, (-16));
(0x1fe57ca0999fc5, (-16));
(0x14a487f670b0de, (-15));
(0x19631d2a6165b0, (-15));
(0x1db4324c2c3454, (-15));
(0x108c92524c9778, (-14));
(0x119330b33655b1, (-14));
(0x11cc7007474942, (-14));
(0x1131efdb0c5169, (-14));
(0x1fb319deae6644, (-15));
(0x1be0ee9d06ed16, (-15));
(0x17637e756f1ce9, (-15));
(0x12b5fec458e3ed, (-15));
(0x1c883149b83af6, (-16));
(0x14b7a252eecd28, (-16));
(0x1ca006085e0eca, (-17));
(0x12cb154ab67912, (-17));
(0x176af128303283, (-18));
(0x1ba4f2b9dfd178, (-19));
(0x1eda9d6cf8516f, (-20));
(0x103d869273e728, (-20));
(0x101490571bfd29, (-21));
(0x1dd9ea28731ece, (-23));
(0x19defe230e7008, (-24));
(0x14d612f1dec934, (-25));
(0x1f02d21d781d46, (-27));
(0x152c8995be4fca, (-28));
(0x1a4cf2793a1f1e, (-30));
(0x1d63fda7ffe813, (-32));
(0x1d21b2ea145a0a, (-34));
(0x1921798dc137b0, (-36));
(0x12609f6b03511e, (-38));
(0x15ea9709600290, (-41));
(0x1406323d7b40f3, (-44));
(0x18fae0c15ad389, (-48));
(0x10000000000000, (-52))];
[(0x1b228b33a00000, (-18));
(0x1542f12cc00221, (-17));
(0x1f7e01a89a6ede, (-17));
(0x16193718ab2cb5, (-16));
(0x1d71d3dd544602, (-16));
(0x12a79c379f2f68, (-15));
(0x16823fb86257ab, (-15));
(0x19e3d5129cc7a7, (-15));
(0x1c694de9436dcc, (-15));
(0x1dc3d81a644b22, (-15));
(0x1dc860e07856b1, (-15));
(0x1c782cf7b67645, (-15));
(0x1a003539b36fa9, (-15));
(0x16af8f7e1d5e5b, (-15));
(0x12e7a23e6dcea1, (-15));
(0x1e14c011203b1c, (-16));
(0x16d5bd9347f6a7, (-16));
(0x1086d61cde127a, (-16));
(0x16c920db2ec95a, (-17));
(0x1de30854c516b2, (-18));
(0x129edb89d3a74c, (-18));
(0x16014585d4d1b2, (-19));
(0x189cea3c81ad98, (-20));
(0x19fec202f75f37, (-21));
(0x19da179d722b62, (-22));
(0x1820e2d7375bb1, (-23));
(0x150d59d1d0eecb, (-24));
(0x111723ea10061a, (-25));
(0x19ac0d688ef30b, (-27));
(0x11b725a1bfbf34, (-28));
(0x164578a7a773a7, (-30));
(0x193a8e83134fbf, (-32));
(0x1964250d34d687, (-34));
(0x16480d4a4e9df2, (-36));
(0x109b8c9d617b88, (-38));
(0x143b51a1bc495f, (-41));
(0x12eddc64dfe307, (-44));
(0x183fab8b4d4315, (-48));
(0x10000000000000, (-52))];
[(0x13223434d00000, (-19));
(0x105133cd0e56d3, (-18));
(0x1a3e54f9b7854d, (-18));
(0x13f6059cdf8189, (-17));
(0x1ccabf63e752b9, (-17));
(0x13bacacd28f377, (-16));
(0x19bc1ded156484, (-16));
(0x1ffe1a9d7d62f3, (-16));
(0x12f96390d815a9, (-15));
(0x157e63f9f98b49, (-15));
(0x1744b4c871d279, (-15));
(0x1815c6d446aded, (-15));
(0x17d8636171faa7, (-15));
(0x16958d6460e396, (-15));
(0x14766feb9618ae, (-15));
(0x11bbfa98f98cdb, (-15));
(0x1d64f1165dcab5, (-16));
(0x1748a45e6e21c5, (-16));
(0x119e16341fb29c, (-16));
(0x19723cc6cea92a, (-17));
(0x1185d0c180973d, (-17));
(0x16fbd3cc579089, (-18));
(0x1cab8d35c91548, (-19));
(0x10fa29d2f2e681, (-19));
(0x130d1f3ecf892c, (-20));
(0x143599c729e0d2, (-21));
(0x143599c729e0d2, (-22));
(0x12fd35f779a9c1, (-23));
(0x10b34170371337, (-24));
(0x1b5dd4d4df6510, (-26));
(0x14c5ee65b9c260, (-27));
(0x1d0468988509aa, (-29));
(0x127d54a4966dad, (-30));
(0x15445a92d20545, (-32));
(0x15c5d3fff6d070, (-34));
(0x13796228a16071, (-36));
(0x1da79cb5b4f6e7, (-39));
(0x127f3acb763808, (-41));
(0x11c576254bd94c, (-44));
(0x1773bb6fa96c50, (-48));
(0x10000000000000, (-52))];
[(0x16aac013c00000, (-21));
(0x1513f3bfd9b706, (-20));
(0x126cb9bcdf7717, (-19));
(0x1e64944dc9e263, (-19));
(0x17b9b678aa25c9, (-18));
(0x1192c8133bee63, (-17));
(0x18c0d494cf80f1, (-17));
(0x109ae003ccc1ac, (-16));
(0x153ff55f921f7b, (-16));
(0x19f832fd7d551a, (-16));
(0x1e56579398da1f, (-16));
(0x10f3661d5f10c6, (-15));
(0x12216d95a83faa, (-15));
(0x1291ac18323639, (-15));
(0x123710c4f00825, (-15));
(0x111d80a4747c0a, (-15));
(0x1eceb45b381278, (-16));
(0x1a8d7c03cbd9a1, (-16));
(0x15e8c2ab32115c, (-16));
(0x114c5a241f843e, (-16));
(0x1a1eeaf9cdccb9, (-17));
(0x12d7ffb4e5eaa9, (-17));
(0x19f3c6c6a4d54f, (-18));
(0x1109da5a8a1d06, (-18));
(0x154cc9c8e41327, (-19));
(0x194ee0b998e792, (-20));
(0x1c8645a8462446, (-21));
(0x1e6d1719e46af5, (-22));
(0x1ea18ae8fcbc86, (-23));
(0x1d02d5f6eeb2e7, (-24));
(0x19c03f720cf941, (-25));
(0x1552e65b0ac67a, (-26));
(0x1061ed57e7e3b7, (-27));
(0x173289539ed359, (-29));
(0x1e046d1d371f83, (-31));
(0x118f86f65228ce, (-32));
(0x1253134cb2389b, (-34));
(0x10be1189f05ccf, (-36));
(0x1a1b88abbf0da2, (-39));
(0x10b8e34422653a, (-41));
(0x108cfae4fd37fb, (-44));
(0x16954b41cd4293, (-48));
(0x10000000000000, (-52))];
[(0x166d6913000000, (-23));
(0x16cebabb2ec17e, (-22));
(0x15b6ae3c9aea88, (-21));
(0x13717b5027891c, (-20));
(0x106ffddcbab814, (-19));
(0x1a522de93f3c6a, (-19));
(0x14024a71d833f3, (-18));
(0x1cf216294472f2, (-18));
(0x13f4ea7eb1f122, (-17));
(0x1a44d11fe1b330, (-17));
(0x1086131c783c53, (-16));
(0x13e3433deb417c, (-16));
(0x16eb38d1652b6c, (-16));
(0x194e0749c469c7, (-16));
(0x1ac7d7f6c74a2b, (-16));
(0x1b2d12325e5250, (-16));
(0x1a7274e0c6349f, (-16));
(0x18af17c0b8fde9, (-16));
(0x1617d953077398, (-16));
(0x12f5710c392f5d, (-16));
(0x1f2f53473ed136, (-17));
(0x189192621dbcf6, (-17));
(0x128797deb6bb06, (-17));
(0x1abc22de6152da, (-18));
(0x126e10b9b5cfb4, (-18));
(0x184084a68f33c2, (-19));
(0x1e6aa45f26dfe0, (-20));
(0x12263e7c55d58d, (-20));
(0x1491be48a58b9f, (-21));
(0x16169de66d8bf9, (-22));
(0x166a1ba5413f31, (-23));
(0x156d14ed9c4aa9, (-24));
(0x133895f7868979, (-25));
(0x101c0600459951, (-26));
(0x19178260524919, (-28));
(0x1209c3f5733061, (-29));
(0x17be51f75f7ebf, (-31));
(0x1c50d1de020b4e, (-33));
(0x1e2ed1e4879afb, (-35));
(0x1c3d58e383411d, (-37));
(0x169c1c30c2ba08, (-39));
(0x1dd6530d6ca1dd, (-42));
(0x1e88c82da64431, (-45));
(0x15a22073490376, (-48));
(0x10000000000000, (-52))];
[(0x126012d0000000, (-25));
(0x1486599f156b75, (-24));
(0x1558dabb1423bb, (-23));
(0x14cbbb685977bb, (-22));
(0x131099db569878, (-21));
(0x1082b975d8182d, (-20));
(0x1b196156d434f2, (-20));
(0x1520f1dcb74f49, (-19));
(0x1f5eaf719a9e39, (-19));
(0x16366ef74afddb, (-18));
(0x1e0cea06c73fe1, (-18));
(0x13714a23f5228c, (-17));
(0x1816cb83d84890, (-17));
(0x1c9a07aaeb1f5f, (-17));
(0x10487629a0e2e5, (-16));
(0x11c9e2c4a896f6, (-16));
(0x12a7297bf4e410, (-16));
(0x12c75181a3b145, (-16));
(0x1227130e6280b1, (-16));
(0x10d95f5ba81494, (-16));
(0x1e079347de6cfc, (-17));
(0x19af781ba07871, (-17));
(0x1514423df87dce, (-17));
(0x1096ce9d978c31, (-17));
(0x1905e1a119c53d, (-18));
(0x12123bdf0a876d, (-18));
(0x18f80f888021f3, (-19));
(0x107b63873cea78, (-19));
(0x14c31cbf4326c4, (-20));
(0x18ea227f1d61b8, (-21));
(0x1c6d3afaf4340f, (-22));
(0x1ec4fdde8b65fc, (-23));
(0x1f837b5af7fd7a, (-24));
(0x1e71ed8cf3e3a7, (-25));
(0x1ba491ec0b42b2, (-26));
(0x177c304f1a71ba, (-27));
(0x129247d0c8a06d, (-28));
(0x1b295937027169, (-30));
(0x123872ae4f0faa, (-31));
(0x163251ea86d7b7, (-33));
(0x183a8e9ddac748, (-35));
(0x1747395e9f7be5, (-37));
(0x133315cf831b5a, (-39));
(0x1a328ed81327dc, (-42));
(0x1bd750273465bf, (-45));
(0x14975cd5768087, (-48));
(0x10000000000000, (-52))];
[(0x18a175d0000000, (-28));
(0x1e67a10a2dd513, (-27));
(0x115993619fecab, (-25));
(0x12722c864c6576, (-24));
(0x1260c7ecf3719f, (-23));
(0x113d79cadbf5d2, (-22));
(0x1e925f772c3f34, (-22));
(0x19b36b3c45eac0, (-21));
(0x148a18644455c3, (-20));
(0x1f46e401c0365a, (-20));
(0x16bac8c9df6e6c, (-19));
(0x1f94b8ad38e2dc, (-19));
(0x1500165463150f, (-18));
(0x1ac336174c3a4f, (-18));
(0x105af4f35eab6b, (-17));
(0x132fc45adfbb5f, (-17));
(0x159d9a8ccfd9fb, (-17));
(0x1765a9792286dc, (-17));
(0x1856ff2d068886, (-17));
(0x1856ff2d068886, (-17));
(0x17661c44ee2131, (-17));
(0x159fafd98a8368, (-17));
(0x1334fd5c826726, (-17));
(0x10649c467906cf, (-17));
(0x1ae09d27e71685, (-18));
(0x1526fb31a46be3, (-18));
(0x1ff0c061bdcd6b, (-19));
(0x171de5f3ee683c, (-19));
(0x1005b6f5f67e61, (-19));
(0x153ed21aabd5e4, (-20));
(0x1ae92c43eab998, (-21));
(0x104156cf7a7aff, (-21));
(0x12b1d1c5e43225, (-22));
(0x146c5367a64d0a, (-23));
(0x1523d4d3778d33, (-24));
(0x14abb3a6902982, (-25));
(0x13066df40a5c12, (-26));
(0x1069890d7785cc, (-27));
(0x1a676d62bcfad4, (-29));
(0x13ae2dfc8d465b, (-30));
(0x1af8ced5a741f0, (-32));
(0x10d2d6ca28f1ba, (-33));
(0x12db85f4fe218e, (-35));
(0x12aa02475dd699, (-37));
(0x1fd5663cbe4de0, (-40));
(0x168dc893fef1f1, (-42));
(0x1905700c730d5d, (-45));
(0x137135779c8dca, (-48));
(0x10000000000000, (-52))];
[(0x1a8a7480000000, (-31));
(0x124347d0aecaa2, (-29));
(0x170386ddbf7e3f, (-28));
(0x1ad2d3fb23eb33, (-27));
(0x1d235a2435ed5a, (-26));
(0x1dad07bf1e61d0, (-25));
(0x1c789d85b10fe4, (-24));
(0x19d4b415b874aa, (-23));
(0x163b7adfeb7570, (-22));
(0x12336ab2d225da, (-21));
(0x1c689e9dc840ef, (-21));
(0x152cb0caec36a0, (-20));
(0x1e31cd933ed4f6, (-20));
(0x149effa51e4319, (-19));
(0x1b025b80b0c6c7, (-19));
(0x10fa46ebd370e6, (-18));
(0x1480a0cf5f07f5, (-18));
(0x17cc4c13c284bb, (-18));
(0x1a9079d1dc1aa7, (-18));
(0x1c86b05a846990, (-18));
(0x1d7a1ca1cd17bf, (-18));
(0x1d5088ffd51921, (-18));
(0x1c0ee914ebf850, (-18));
(0x19d8694f9af602, (-18));
(0x16e83f4e05d6d5, (-18));
(0x1387b3cc83c3dc, (-18));
(0x1002aade72304d, (-18));
(0x193a2d454d1326, (-19));
(0x13168b2d1a904b, (-19));
(0x1bb8519e33ba56, (-20));
(0x134c0de2e11a3c, (-20));
(0x19babd2e817850, (-21));
(0x1067b17a23a021, (-21));
(0x13fa0af3b0b70d, (-22));
(0x17301413836d96, (-23));
(0x199a0da15b3b5e, (-24));
(0x1ad252f2d5bd21, (-25));
(0x1a95d39b8451c1, (-26));
(0x18d863d7e1ff56, (-27));
(0x15cd69d3c708d7, (-28));
(0x11e027666d73bd, (-29));
(0x1b3872b5190aae, (-31));
(0x1319d9dbb9b92b, (-32));
(0x187805c39563db, (-34));
(0x1c4111f6bd72ba, (-36));
(0x1cea0f3f69e439, (-38));
(0x199b5fc70ff265, (-40));
(0x12f05b3e81f78f, (-42));
(0x1612f7d2b13efe, (-45));
(0x122a788fc76de5, (-48));
(0x10000000000000, (-52))];
[(0x166ae800000000, (-34));
(0x116a8c5765e14c, (-32));
(0x187297affa8ecc, (-31));
(0x1f6fae7e07bac4, (-30));
(0x12b3aac81d99ba, (-28));
(0x14bf7095410dee, (-27));
(0x15971226b98e62, (-26));
(0x152c86f5e21382, (-25));
(0x13a59f56295ab9, (-24));
(0x114d9ce2513b86, (-23));
(0x1d016ca13e154a, (-23));
(0x17304d7340f753, (-22));
(0x11b7466f74a9a7, (-21));
(0x19e90b14f8df05, (-21));
(0x12292fbaa89e1f, (-20));
(0x186e048f192507, (-20));
(0x1f90caac26cb9a, (-20));
(0x139aa5ffb9e00a, (-19));
(0x176caf23ac0d6e, (-19));
(0x1af096e775eddf, (-19));
(0x1dd555b82a1862, (-19));
(0x1fd27d913df7e0, (-19));
(0x1059d46890c530, (-18));
(0x103096c9903f67, (-18));
(0x1ee41fc90f04de, (-19));
(0x1c64b68879d56f, (-19));
(0x192376957ab138, (-19));
(0x156eb4b9991311, (-19));
(0x1196bfa8e77bd4, (-19));
(0x1bc637fbf2f568, (-20));
(0x151575d3fb5efa, (-20));
(0x1ec0a8aca0fe9a, (-21));
(0x1586dc78d7189f, (-21));
(0x1ce54bb677b534, (-22));
(0x129220c255a9c8, (-22));
(0x16d2eac6bba9d4, (-23));
(0x1ac66498694a3d, (-24));
(0x1debb4824e3ffc, (-25));
(0x1fc684c66b2890, (-26));
(0x1ffae60954dc15, (-27));
(0x1e66e8bc346896, (-28));
(0x1b313edbf1fa84, (-29));
(0x16c638d1d91e0e, (-30));
(0x11c1b6dcb959e6, (-31));
(0x19971251705ba4, (-33));
(0x10e296114458b1, (-34));
(0x1428d6e6b00feb, (-36));
(0x156c9e9731e11f, (-38));
(0x13ce8852fee1c3, (-40));
(0x1ec7e6028e5e29, (-43));
(0x12ff9434b34638, (-45));
(0x10bbb307acafda, (-48));
(0x10000000000000, (-52))];
[(0x1c930000000000, (-38));
(0x198c0b48cc2fca, (-36));
(0x143aa9629d881b, (-34));
(0x1cf3f9785c1a76, (-33));
(0x12fcb16efd2357, (-31));
(0x170d67324e9216, (-30));
(0x1a1b6a47a04565, (-29));
(0x1bbeb7e4f6de5f, (-28));
(0x1bcd3b57093f7d, (-27));
(0x1a5eb911a5199a, (-26));
(0x17c08459b5a82d, (-25));
(0x145ef37b673a66, (-24));
(0x10ac63fe929118, (-23));
(0x1a19168c6e9891, (-23));
(0x138fd67e3415b9, (-22));
(0x1c201edf3e17b7, (-22));
(0x136a307a839887, (-21));
(0x19c38750fc5317, (-21));
(0x1071feff649f36, (-20));
(0x14362b140bc491, (-20));
(0x17eda8eb70483d, (-20));
(0x1b4d2a4ff12248, (-20));
(0x1e0814f1893f4f, (-20));
(0x1fdb7011ca0822, (-20));
(0x104c20cc0be034, (-19));
(0x10159690b92383, (-19));
(0x1e9fa77df0d50e, (-20));
(0x1c1e06e53aa1d9, (-20));
(0x18e4e157835c43, (-20));
(0x153f337c48cb67, (-20));
(0x11796a1c185ea8, (-20));
(0x1baef1d07c39b8, (-21));
(0x151b6366ad83ea, (-21));
(0x1ef4f83031b068, (-22));
(0x15d0d5f852fefa, (-22));
(0x1d846544f7d105, (-23));
(0x13257363e24114, (-23));
(0x17c82e235f119f, (-24));
(0x1c3cb02c784f4a, (-25));
(0x1ffc91b76c4238, (-26));
(0x113efb0a8d2211, (-26));
(0x11a7f99b153d8a, (-27));
(0x111bb00731e69a, (-28));
(0x1f4321119143d6, (-30));
(0x1acfe0c9cdd56a, (-31));
(0x15778028e33bea, (-32));
(0x1fdeb3d97d6dcb, (-34));
(0x15be36407e9747, (-35));
(0x1af5540416a72c, (-37));
(0x1de856112be0ca, (-39));
(0x1d0c7db941b6bc, (-41));
(0x17e7de891c727d, (-43));
(0x1f954e20de87e7, (-46));
(0x1e3307cc56cf5b, (-49));
(0x10000000000000, (-52))];
[(0x19d40000000000, (-42));
(0x1b698fdd40bd76, (-40));
(0x18f64ddeac9872, (-38));
(0x142390b13e6d21, (-36));
(0x1d60d1e3f4bb5c, (-35));
(0x13a4c7b104909c, (-33));
(0x185396995446fc, (-32));
(0x1c1cc25e1dbc69, (-31));
(0x1e7f9b83241cf8, (-30));
(0x1f3605207a21d1, (-29));
(0x1e3f5147bd6509, (-28));
(0x1bd98edb171193, (-27));
(0x186da1450eefbe, (-26));
(0x14759362b13077, (-25));
(0x1064a5d89cdefb, (-24));
(0x192cacc9f92e67, (-24));
(0x128cce412f0aa8, (-23));
(0x1a443c679581bc, (-23));
(0x11e2fff678689c, (-22));
(0x1773a3a1718a14, (-22));
(0x1d9f8d497c2c97, (-22));
(0x1209507ff1d0ac, (-21));
(0x152f2478d22657, (-21));
(0x18023a66cc0952, (-21));
(0x1a4399cd95bd5a, (-21));
(0x1bbd2e3b4d9b7c, (-21));
(0x1c49f65fe6739b, (-21));
(0x1bdbdf33148066, (-21));
(0x1a7e0913a9e12a, (-21));
(0x1852f7bb302e0b, (-21));
(0x158f1380d3c165, (-21));
(0x1270abd30f3a45, (-21));
(0x1e6e44af3a0b4e, (-22));
(0x1835e08a14be1b, (-22));
(0x128fb4ae20f825, (-22));
(0x1b681974c4c6b1, (-23));
(0x1377c901513db6, (-23));
(0x1a95beaca60534, (-24));
(0x116d96f0268d50, (-24));
(0x15e8ff2fb128c8, (-25));
(0x1a5eea57504119, (-26));
(0x1e550337f5842b, (-27));
(0x10a2c1326a2705, (-27));
(0x115c00eee3eb0f, (-28));
(0x112eb0426210c3, (-29));
(0x10137d539ab249, (-30));
(0x1c51102d5f9a81, (-32));
(0x175aed326cce6c, (-33));
(0x11ecf60c4b8f76, (-34));
(0x19667bd084e1a7, (-36));
(0x10701572cdfdc5, (-37));
(0x1328b3e6fbe812, (-39));
(0x13b569ec1cef78, (-41));
(0x115bdaabbd2297, (-43));
(0x18e5b4bb84ea80, (-46));
(0x1a61be6cfec996, (-49));
(0x10000000000000, (-52))];
[(0x1d800000000000, (-47));
(0x13b0548492e9ed, (-44));
(0x1545044d4abe2f, (-42));
(0x13b8787d245f5b, (-40));
(0x10346d79bdcfef, (-38));
(0x1815cfff7b236b, (-37));
(0x106a0a82d5c3f1, (-35));
(0x14b9cc49708e0e, (-34));
(0x186e2530e3b0d9, (-33));
(0x1b0b74877be4ee, (-32));
(0x1c40d1c8f54aca, (-31));
(0x1bf6a27ed423b4, (-30));
(0x1a4e81a50e2a12, (-29));
(0x17966210d2eaa9, (-28));
(0x14343d5540babf, (-27));
(0x1090acfd8d1b3b, (-26));
(0x1a0b5783491f44, (-26));
(0x13a8b4aaa4a9a7, (-25));
(0x1c8863d182d6ed, (-25));
(0x13ed9b720fcca3, (-24));
(0x1ad0dd5c86dad8, (-24));
(0x1164e3c4206102, (-23));
(0x15c4fc65caaaf4, (-23));
(0x1a4c9e2b938c43, (-23));
(0x1eaeb8882c23a4, (-23));
(0x114a7c1d27196f, (-22));
(0x12d5290e59bd30, (-22));
(0x13d358538cf0ce, (-22));
(0x142ccc18232cd8, (-22));
(0x13d8cfab01f7d4, (-22));
(0x12df95a2f79d90, (-22));
(0x1158ed491b52b4, (-22));
(0x1ed12be8efefc3, (-23));
(0x1a71eaff68f9b8, (-23));
(0x15ea83cefaf4e3, (-23));
(0x11886972625d82, (-23));
(0x1b1093bcd273ac, (-24));
(0x1423fa4168dc1d, (-24));
(0x1ce0ee63a4ebae, (-25));
(0x13ed9b720fcca3, (-25));
(0x1a71ec1fd6ecaa, (-26));
(0x10d9bf6db1b5fd, (-26));
(0x1497da088d2a95, (-27));
(0x18184170cd3ee1, (-28));
(0x1af051c700f8ff, (-29));
(0x1cb71335df6075, (-30));
(0x1d1af17ab3134f, (-31));
(0x1bf6a27ed423b4, (-32));
(0x195ec6d3cc96c0, (-33));
(0x15a2c39f9650be, (-34));
(0x113eb0d7374fa8, (-35));
(0x19823681c59b25, (-37));
(0x1157e476eb8694, (-38));
(0x1568b8e3181f7b, (-40));
(0x17921399ce45ba, (-42));
(0x1689ae45e06cfb, (-44));
(0x11e946fdb8345d, (-46));
(0x15b9be5d52a9da, (-49));
(0x10000000000000, (-52))];
[(0x10000000000000, (-52));
(0x1efbdeb14f4ed9, (-50));
(0x15092295a36418, (-47));
(0x171f914b12ae72, (-45));
(0x15d2782880eaa9, (-43));
(0x1241f9c18e8ac6, (-41));
(0x1ba394fafe7584, (-40));
(0x1331097868cb6c, (-38));
(0x18b2d9f9e4c186, (-37));
(0x1daf1f29796555, (-36));
(0x10c24eea796270, (-34));
(0x11dd7be5f6f70b, (-33));
(0x120ce0fcf70144, (-32));
(0x115798c832e9c4, (-31));
(0x1fc67462b80f27, (-31));
(0x1bd27cf3b8c1c2, (-30));
(0x17546348d514a1, (-29));
(0x12c42fd0bf0d4f, (-28));
(0x1d015dab494d44, (-28));
(0x158ff5091bce5a, (-27));
(0x1edf603b3f4421, (-27));
(0x154dd8f6abff25, (-26));
(0x1c5d75c7ef2aa0, (-26));
(0x123ad416d222b9, (-25));
(0x16a283cd1e954e, (-25));
(0x1b296af624b32b, (-25));
(0x1f839fdcfabf92, (-25));
(0x11ae9ca196884a, (-24));
(0x13322e8332620e, (-24));
(0x142a1bfdfffe8e, (-24));
(0x147f707277cbb2, (-24));
(0x142a1bfdfffe8e, (-24));
(0x13322e8332620e, (-24));
(0x11ae9ca196884a, (-24));
(0x1f839fdcfabf92, (-25));
(0x1b296af624b32b, (-25));
(0x16a283cd1e954e, (-25));
(0x123ad416d222b9, (-25));
(0x1c5d75c7ef2aa0, (-26));
(0x154dd8f6abff25, (-26));
(0x1edf603b3f4421, (-27));
(0x158ff5091bce5a, (-27));
(0x1d015dab494d44, (-28));
(0x12c42fd0bf0d4f, (-28));
(0x17546348d514a1, (-29));
(0x1bd27cf3b8c1c2, (-30));
(0x1fc67462b80f27, (-31));
(0x115798c832e9c4, (-31));
(0x120ce0fcf70144, (-32));
(0x11dd7be5f6f70b, (-33));
(0x10c24eea796270, (-34));
(0x1daf1f29796555, (-36));
(0x18b2d9f9e4c186, (-37));
(0x1331097868cb6c, (-38));
(0x1ba394fafe7584, (-40));
(0x1241f9c18e8ac6, (-41));
(0x15d2782880eaa9, (-43));
(0x171f914b12ae72, (-45));
(0x15092295a36418, (-47));
(0x1efbdeb14f4ed9, (-50));
(0x10000000000000, (-52))]];
   [[(0x1f000000000000, (-48));
(0x10000000000000, (-52))];
[(0x13600000000000, (-40));
(0x1e03ffbbc4d462, (-44));
(0x1efbdeb14f4ed9, (-48));
(0x10000000000000, (-52))];
[(0x1cf8c000000000, (-35));
(0x12bafd549ee8a9, (-37));
(0x13583e72942b58, (-40));
(0x1df3fd98a35be3, (-44));
(0x1eef77764a2c09, (-48));
(0x10000000000000, (-52))];
[(0x14858800000000, (-30));
(0x129f807e2c9d98, (-32));
(0x1ce55981231337, (-35));
(0x12a6f7f98f4bab, (-37));
(0x1340fff95a1c8f, (-40));
(0x1dd3f94b7f0b93, (-44));
(0x1edac054c8f94c, (-48));
(0x10000000000000, (-52))];
[(0x10d58990000000, (-26));
(0x13b6d039c0280b, (-28));
(0x14722e60951bd4, (-30));
(0x1281847053c3e9, (-32));
(0x1cab548eb43c97, (-35));
(0x127f0d434afdcd, (-37));
(0x131a5729a0ca3b, (-40));
(0x1da3f2c65d6761, (-44));
(0x1ebda87f068e4d, (-48));
(0x10000000000000, (-52))];
[(0x11e7c7d8000000, (-23));
(0x19c053139d4090, (-25));
(0x10c0f7768205cc, (-26));
(0x138c3935ce821d, (-28));
(0x14386f2dafdc39, (-30));
(0x1245ec6e02df86, (-32));
(0x1c4b3c894ec575, (-35));
(0x12437d3186113c, (-37));
(0x12e46317c24ae4, (-40));
(0x1d63e9f3b8094e, (-44));
(0x1e98180e9b47f1, (-48));
(0x10000000000000, (-52))];
[(0x1a8addfc800000, (-21));
(0x16b0c29eadb1b4, (-22));
(0x11ccc4349f268f, (-23));
(0x197a310052ab13, (-25));
(0x1083b5713186a8, (-26));
(0x1337d8d261bff0, (-28));
(0x13d932330b42e5, (-30));
(0x11ed77a9f9a7c6, (-32));
(0x1bc5f8edf89e77, (-35));
(0x11f4a7c3ca0d9b, (-37));
(0x129f4f81075558, (-40));
(0x1d13deb5c7cd83, (-44));
(0x1e69efa03cd347, (-48));
(0x10000000000000, (-52))];
[(0x1cd148c9000000, (-19));
(0x1ca096be24df8a, (-20));
(0x1a5af351d7060b, (-21));
(0x1665ce2b5237b1, (-22));
(0x117c7f31520d24, (-23));
(0x18efb3427e58fa, (-25));
(0x101f1d4c3405e0, (-26));
(0x12bb460e1d5c2e, (-28));
(0x1355f5bbfd4661, (-30));
(0x1179427052cfde, (-32));
(0x1b1ccc1e90e18e, (-35));
(0x11930cf9700794, (-37));
(0x124b5507978850, (-40));
(0x1cb3d0e582ab77, (-44));
(0x1e3307cc56cf5b, (-48));
(0x10000000000000, (-52))];
[(0x17c230f2e40000, (-17));
(0x1af8aadbf19afa, (-18));
(0x1c945d44a2a04a, (-19));
(0x1c30d13bc43be9, (-20));
(0x19cce4bc1d9e00, (-21));
(0x15d249887023ae, (-22));
(0x10f9433b7a3e65, (-23));
(0x1824586371cb99, (-25));
(0x1f2aca9b41049f, (-27));
(0x1218d8bd3e86d0, (-28));
(0x12b0c88f0dc6ea, (-30));
(0x10eac3267dd28c, (-32));
(0x1a5151aa65826b, (-35));
(0x111f4cd1980087, (-37));
(0x11e8b981d4bfe8, (-40));
(0x1c43c0513b71fd, (-44));
(0x1df33076fb584a, (-48));
(0x10000000000000, (-52))];
[(0x1e910a93d00000, (-16));
(0x1393dc14bac45b, (-16));
(0x178847cd690dab, (-17));
(0x1a7e7385a5b481, (-18));
(0x1be02e11a852c1, (-19));
(0x1b5599a45968e2, (-20));
(0x18e5b1d1f32866, (-21));
(0x14fae36b126f4a, (-22));
(0x1046c9b5bb5c2a, (-23));
(0x171d3ae775db50, (-25));
(0x1dd322b70bafa1, (-27));
(0x11539ceabf3090, (-28));
(0x11ec41914a1fdb, (-30));
(0x1043c64b360a47, (-32));
(0x19657c139b9ab6, (-35));
(0x109a274b1ccb16, (-37));
(0x1177d05f008ecb, (-40));
(0x1bc3acbacb4f53, (-44));
(0x1daa2fefaae1d7, (-48));
(0x10000000000000, (-52))];
[(0x1f54aad7820000, (-15));
(0x166c37422c7025, (-15));
(0x1e3c1b0098a9d5, (-16));
(0x132e41e4b6ec1a, (-16));
(0x16dd6a52928995, (-17));
(0x198f9c187ec513, (-18));
(0x1abc4e718d46bb, (-19));
(0x1a175bf040c57b, (-20));
(0x17ad6b6dfa98f3, (-21));
(0x13e6627715b774, (-22));
(0x1ed42fcda844a9, (-24));
(0x15e0e81e566246, (-25));
(0x1c3ebd4e2f56f8, (-27));
(0x106f424f2f38e6, (-28));
(0x110b75216a5156, (-30));
(0x1f0cd2ecece82a, (-33));
(0x185b920cf7c5a1, (-35));
(0x10047c648352f5, (-37));
(0x10f8fb23a491dd, (-40));
(0x1b3395d5230135, (-44));
(0x1d57c1d6d9269e, (-48));
(0x10000000000000, (-52))];
[(0x1a01788e740000, (-14));
(0x14a33481d7ec21, (-14));
(0x1ef240228f858b, (-15));
(0x15e83d3df6a840, (-15));
(0x1d422573e8011c, (-16));
(0x126872711a5184, (-16));
(0x15c9feb50a7cce, (-17));
(0x1836f6c433cb83, (-18));
(0x1934dfbce8f95a, (-19));
(0x18822a5837382d, (-20));
(0x162ed1a9c4e9d0, (-21));
(0x129d5c47c49eff, (-22));
(0x1cd29f66dddd6a, (-24));
(0x14772b22680ae9, (-25));
(0x1a7654a3360569, (-27));
(0x1ee0103a870c24, (-29));
(0x1011e83fb90ee5, (-30));
(0x1d6a2ab2d263c8, (-33));
(0x17362b2a52bc62, (-35));
(0x1ebe9837c73ba5, (-38));
(0x106caa00f27172, (-40));
(0x1a937b41134fde, (-44));
(0x1cfb95bb9dcc0c, (-48));
(0x10000000000000, (-52))];
[(0x11b4a0cc81c000, (-13));
(0x1ef8d44947749e, (-14));
(0x19a5b1c3251bf7, (-14));
(0x141a70ab9567b9, (-14));
(0x1dd1677f21ff52, (-15));
(0x14e84f9b4574bd, (-15));
(0x1bb14f1e440f74, (-16));
(0x114cce4d9ddb79, (-16));
(0x145b5c9b54dc45, (-17));
(0x1683dee95b5971, (-18));
(0x1759dc26f9fefb, (-19));
(0x16a51a64000d55, (-20));
(0x1476d1ccfc8918, (-21));
(0x1129d94091bd4e, (-22));
(0x1a96ebc9a6dfc2, (-24));
(0x12e8cd9d246da9, (-25));
(0x1883a73e190dd9, (-27));
(0x1cb54ae8356478, (-29));
(0x1e070339854e20, (-31));
(0x1ba4ed7ca2f2c9, (-33));
(0x15f82bfc95b1a0, (-35));
(0x1d576cdd921ed3, (-38));
(0x1fa6b91677eb58, (-41));
(0x19e35c8907dd8f, (-44));
(0x1c954d5f47c90f, (-48));
(0x10000000000000, (-52))];
[(0x13f9bbfa6b0000, (-13));
(0x132a2216ec8e4e, (-13));
(0x116ebd9cfcb148, (-13));
(0x1e12f587c8808a, (-14));
(0x18991da3febe58, (-14));
(0x1312577f309cec, (-14));
(0x1c04bb840a5559, (-15));
(0x137bc562c05826, (-15));
(0x199fe0458155bc, (-16));
(0x1fd3d15846904f, (-17));
(0x12a2dfa1e16146, (-17));
(0x14893f22252012, (-18));
(0x153e2a2c3b2be4, (-19));
(0x14917af93b7b35, (-20));
(0x1293eaf1a11472, (-21));
(0x1f2dd28b3e1300, (-23));
(0x18306050cf5643, (-24));
(0x113f503f3fa3c7, (-25));
(0x167134d0bf6e6b, (-27));
(0x1a685dae6d9ca8, (-29));
(0x1bc8f15c4f7f4c, (-31));
(0x19c2ed10dc0ba2, (-33));
(0x14a4c1906a5159, (-35));
(0x1bd5f6b40c87b1, (-38));
(0x1e5b4529a0ef70, (-41));
(0x1923391b50dab4, (-44));
(0x1c247a85fe81fa, (-48));
(0x10000000000000, (-52))];
[(0x12d1be06174000, (-13));
(0x13bb63aca310c0, (-13));
(0x13a1d00235220f, (-13));
(0x128b6f57a60084, (-13));
(0x10a2da8ef05f0b, (-13));
(0x1c59113ed4ae21, (-14));
(0x16ef41af701c81, (-14));
(0x119cd153a65df1, (-14));
(0x19a9484ba1b84b, (-15));
(0x11b7ee1fd31365, (-15));
(0x172a75ebfb33f3, (-16));
(0x1ca2e151c040ef, (-17));
(0x10b4b6a36e8c92, (-17));
(0x125c61a3337690, (-18));
(0x12f68874c69e48, (-19));
(0x1259ef68c03614, (-20));
(0x1095817aa21882, (-21));
(0x1be05c6a4eba28, (-23));
(0x15aefa9ad67cd0, (-24));
(0x1f093a4dc2bde8, (-26));
(0x1449f536844f27, (-27));
(0x1803f23856f532, (-29));
(0x197285dd464b69, (-31));
(0x17ca6167a28499, (-33));
(0x133f5c44c7b08e, (-35));
(0x1a3cf5b2eddb3f, (-38));
(0x1cf83a68288995, (-41));
(0x185310426a244a, (-44));
(0x1ba89c325845e7, (-48));
(0x10000000000000, (-52))];
[(0x1dc98073580000, (-14));
(0x1104bc58512cae, (-13));
(0x12758b1a977212, (-13));
(0x13058802af53ee, (-13));
(0x12a22c62421c05, (-13));
(0x115bd6b3ec0786, (-13));
(0x1ec32c0e436990, (-14));
(0x19ecccc806da50, (-14));
(0x14c64faa517a6c, (-14));
(0x1fa4eaa2ebaf9f, (-15));
(0x16e3d7c8298061, (-15));
(0x1f6c77db6900bf, (-16));
(0x1471bb3cd0eec1, (-16));
(0x192dcbc2c8c62c, (-17));
(0x1d4d11540e6f0f, (-18));
(0x1013a1701db682, (-18));
(0x10986494c3d52c, (-19));
(0x10117d1d944d6b, (-20));
(0x1d1654e1547569, (-22));
(0x1882c305523284, (-23));
(0x1322d51813c5b6, (-24));
(0x1b856d5ee4ca92, (-26));
(0x12190b5e38dab6, (-27));
(0x1592f49bfe5e4c, (-29));
(0x170cfee8e82840, (-31));
(0x15c1d4aa561628, (-33));
(0x11cba9ec15169b, (-35));
(0x188f69cf4e3a1a, (-38));
(0x1b7efffb58445f, (-41));
(0x1772e11a673b32, (-44));
(0x1b211b1c70d023, (-48));
(0x10000000000000, (-52))];
[(0x13e2e392d2c000, (-14));
(0x18b738953dae07, (-14));
(0x1d272ec9819621, (-14));
(0x10566525935f6c, (-13));
(0x116a72babd690a, (-13));
(0x11ab7597710493, (-13));
(0x111213afd06b6b, (-13));
(0x1f6a5183386ece, (-14));
(0x1b88c4da31b32c, (-14));
(0x16fbc9e3907a1c, (-14));
(0x1243f607883f4e, (-14));
(0x1ba04106a4eaeb, (-15));
(0x13dd9ad312793b, (-15));
(0x1b244247f52110, (-16));
(0x1197e325f5e14d, (-16));
(0x159c6b84c5fae0, (-17));
(0x191c1755ae0f36, (-18));
(0x1b8a2a1be831b7, (-19));
(0x1c7160ea3476c8, (-20));
(0x1b9534cd3561f4, (-21));
(0x1907f0b5183935, (-22));
(0x152bb5476b0a2d, (-23));
(0x109b919f918ee6, (-24));
(0x1806cab26beba9, (-26));
(0x1fd2ec38bdafdb, (-28));
(0x1320522c7bd69c, (-29));
(0x14a1c220182c63, (-31));
(0x13b00d32fb934f, (-33));
(0x104d8f2799057c, (-35));
(0x16d092faa4c26c, (-38));
(0x19f124fc9ed1aa, (-41));
(0x1682aa823b26fd, (-44));
(0x1a8d45215b8101, (-48));
(0x10000000000000, (-52))];
[(0x1675b5bae80000, (-15));
(0x1e52fedf2709ba, (-15));
(0x136a500583618e, (-14));
(0x179dde78f8738f, (-14));
(0x1b52d7e8ffcbba, (-14));
(0x1e19143cebfdea, (-14));
(0x1f96ff70603b1c, (-14));
(0x1f9bcf6079b6a4, (-14));
(0x1e298218211aea, (-14));
(0x1b73e238023b30, (-14));
(0x17d50264a4be98, (-14));
(0x13ba9d7c9e5984, (-14));
(0x1f2308a76bee09, (-15));
(0x176873b503ee5d, (-15));
(0x10c08efa31d33b, (-15));
(0x16cdb48439eefc, (-16));
(0x1d7c3f90868285, (-17));
(0x1214c1315ea699, (-17));
(0x14ff53f744a070, (-18));
(0x170a973f2f4e75, (-19));
(0x17d5945e9bde94, (-20));
(0x172c9992a561d2, (-21));
(0x151ba6522ad783, (-22));
(0x11f0381db6dd9d, (-23));
(0x1c4f9452f1bdd4, (-25));
(0x149fcf3359ea98, (-26));
(0x1b8b8216c83e59, (-28));
(0x10b6b69774e906, (-29));
(0x123a2e58774765, (-31));
(0x119bf58b6a9c42, (-33));
(0x1d923fd247ac78, (-36));
(0x1503f12149ba64, (-38));
(0x1850640717e815, (-41));
(0x15826b06dd2884, (-44));
(0x19ec474a261263, (-48));
(0x10000000000000, (-52))];
[(0x157b58de340000, (-16));
(0x1f7e01a89a6ede, (-16));
(0x15ddf9c992d50a, (-15));
(0x1cd31e640c6aa9, (-15));
(0x120ff6f7a29ac2, (-14));
(0x158ceeed1aa11f, (-14));
(0x1881245cd6c21a, (-14));
(0x1a938da05a3a90, (-14));
(0x1b8258bdc64305, (-14));
(0x1b3012cb7a9e7d, (-14));
(0x19a979069a1fd5, (-14));
(0x17226786673b78, (-14));
(0x13eadedd479a68, (-14));
(0x105f3eebcdc76f, (-14));
(0x19afc47443c336, (-15));
(0x1337ec7cb825c3, (-15));
(0x1b680c64706172, (-16));
(0x129abab6a3dedb, (-16));
(0x1804a83b09fd41, (-17));
(0x1d7110485ed358, (-18));
(0x111aa365d8b83d, (-18));
(0x12cc673f6e243d, (-19));
(0x137f1182398769, (-20));
(0x1306c8b4d294bf, (-21));
(0x1169c897987ca3, (-22));
(0x1dc5b16d64eedb, (-24));
(0x17a91b8244143f, (-25));
(0x11614ced0d3cb1, (-26));
(0x176f6f80d70b11, (-28));
(0x1cc0915be608fb, (-30));
(0x1fbed6c53a8f70, (-32));
(0x1f1904d840b539, (-34));
(0x1a852e04248c7a, (-36));
(0x132d442834023e, (-38));
(0x169ea78fec9c2c, (-41));
(0x147220c51b3f21, (-44));
(0x193d25dbd52eb4, (-48));
(0x10000000000000, (-52))];
[(0x1164e9a4600000, (-17));
(0x1bb1c95a3ac33b, (-17));
(0x14d93e6bbd0966, (-16));
(0x1dc1e14ca10656, (-16));
(0x142c4eac2b02e5, (-15));
(0x1a068faec73482, (-15));
(0x1ffe1a9d7d62f3, (-15));
(0x12c1dfc451f3b9, (-14));
(0x14ffe1c347a2b4, (-14));
(0x16760d4d1dab14, (-14));
(0x16f6d65f80bce2, (-14));
(0x1673176afe3c4a, (-14));
(0x14fcea1497b5ff, (-14));
(0x12c3b44c271f93, (-14));
(0x100a90bfa90ef0, (-14));
(0x1a375d4fbbbb99, (-15));
(0x1477b266e37b2d, (-15));
(0x1e83b309c52f41, (-16));
(0x15b35c3e75b393, (-16));
(0x1d6a894bb54e54, (-17));
(0x12fa691811dff4, (-17));
(0x1746926c48911f, (-18));
(0x1b1613f5e0dd58, (-19));
(0x1dd8fb55668015, (-20));
(0x1f11f4fca0a57c, (-21));
(0x1e777f1b41cc00, (-22));
(0x1c0c7bf6d349ee, (-23));
(0x18260268bc29e6, (-24));
(0x1359def174b373, (-25));
(0x1cb3c7269d9a2b, (-27));
(0x13903b670be0b0, (-28));
(0x184cd0b0fc3a31, (-30));
(0x1b3470d74ae5da, (-32));
(0x1b112d750b4c86, (-34));
(0x177c9940fc1bfa, (-36));
(0x11508be9759f1d, (-38));
(0x14de0f3d390593, (-41));
(0x1351c93ce03f9b, (-44));
(0x187eb1990b697a, (-48));
(0x10000000000000, (-52))];
[(0x17cce347f00000, (-19));
(0x1499759fa6c0da, (-18));
(0x10d1c2f9d6cc18, (-17));
(0x19fd6b4326c081, (-17));
(0x130c901feba6e6, (-16));
(0x1a8b7e584dc73a, (-16));
(0x119cbbdeda4b26, (-15));
(0x16497a024b6a4d, (-15));
(0x1aecffe7217b5e, (-15));
(0x1f1621ec194969, (-15));
(0x11294e78ac4131, (-14));
(0x12216d95a83faa, (-14));
(0x1255e01004b0b9, (-14));
(0x11c0fe7a055355, (-14));
(0x1075fe825e3bac, (-14));
(0x1d39fc1f3ff688, (-15));
(0x18d676e6d97f57, (-15));
(0x14330588246f26, (-15));
(0x1f6c80488d5a68, (-16));
(0x175cf60f47fbcb, (-16));
(0x1096c362447c2b, (-16));
(0x1679addff9b07d, (-17));
(0x1d03f7c8a7d9bf, (-18));
(0x11d22143a0c016, (-18));
(0x14caf0f94a09a8, (-19));
(0x16ff47acd50aaf, (-20));
(0x180dd1070cd123, (-21));
(0x17ba08652474e6, (-22));
(0x15ffad552b553e, (-23));
(0x1318f11c835c30, (-24));
(0x1ee6b288dc5e4e, (-26));
(0x172b1bce483ba9, (-27));
(0x1ff9b5234a7559, (-29));
(0x1422deacc12262, (-30));
(0x16e573499a5565, (-32));
(0x172dcb0ca9b906, (-34));
(0x148157263ea56c, (-36));
(0x1ee4105d3719e2, (-39));
(0x1310f688761228, (-41));
(0x1221610d0d1a84, (-44));
(0x17af78e6da9b30, (-48));
(0x10000000000000, (-52))];
[(0x1b694789000000, (-21));
(0x19d8273e1e426a, (-20));
(0x16ea04b7c66722, (-19));
(0x132d52d6d9d6c2, (-18));
(0x1e64944dc9e263, (-18));
(0x16dcc6ad3bfb7c, (-17));
(0x105c233fc5eb92, (-16));
(0x164ff11524c345, (-16));
(0x1d0a90971abde8, (-16));
(0x120f136441d911, (-15));
(0x157b3133792079, (-15));
(0x18756cd831bc1a, (-15));
(0x1aac710abe614c, (-15));
(0x1bdfc9cc08a78b, (-15));
(0x1bebb6085ff9fc, (-15));
(0x1acfd8b91419b2, (-15));
(0x18af17c0b8fde9, (-15));
(0x15c8be03c68444, (-15));
(0x126cb2895f6a7b, (-15));
(0x1ddb73ba109eb9, (-16));
(0x1729dd7bc4a710, (-16));
(0x1131de4498643d, (-16));
(0x1867d01f4be91d, (-17));
(0x108a97de0fd6ae, (-17));
(0x156365fae4e4be, (-18));
(0x1a576e0a91ba98, (-19));
(0x1ed918aed312c3, (-20));
(0x11241e91df49af, (-20));
(0x1208f9ac0b97e9, (-21));
(0x11ea7ff716f93d, (-22));
(0x10bfe2b9d17459, (-23));
(0x1d5c51a871f397, (-25));
(0x1803bb2e03e1b9, (-26));
(0x123a9240fb36ba, (-27));
(0x198281ad11ac66, (-29));
(0x1050ed0fc72c64, (-30));
(0x12e08be956b234, (-32));
(0x137ba40b190b89, (-34));
(0x119c4a422bc63c, (-36));
(0x1b2c714eb7e47f, (-39));
(0x1139fd18f5e312, (-41));
(0x10e0e3883aefd9, (-44));
(0x16cdb2bbb212eb, (-48));
(0x10000000000000, (-52))];
[(0x1a6a1b0b000000, (-23));
(0x1b36598e52af65, (-22));
(0x1a40e1dd1b4aee, (-21));
(0x17d4c0522c3e97, (-20));
(0x146e4dfea5b299, (-19));
(0x109842ab81f8cc, (-18));
(0x199b3549d4e9d8, (-18));
(0x12ce3a0b06d6b9, (-17));
(0x1a5747d2edf1bf, (-17));
(0x119e5ee82f3f6b, (-16));
(0x1689af85156fe9, (-16));
(0x1b98f381bd1041, (-16));
(0x102ffcd1bd8a91, (-15));
(0x12347b51f0fecd, (-15));
(0x13a35a9394fb39, (-15));
(0x14539cb93802a1, (-15));
(0x143143b9967ab8, (-15));
(0x1340f77e5db0a2, (-15));
(0x119f086e171616, (-15));
(0x1ef42bd788f299, (-16));
(0x1a156ba6874d5c, (-16));
(0x1514423df87dce, (-16));
(0x1053ec8f38b775, (-16));
(0x183a77cc43a4e0, (-17));
(0x11340b1ec1b79a, (-17));
(0x175b39aac20dbe, (-18));
(0x1e47831cbe140e, (-19));
(0x12b6fa3bf22f16, (-19));
(0x16058725a55553, (-20));
(0x189e44320891b0, (-21));
(0x1a160b6b222951, (-22));
(0x1a2133dc5123b0, (-23));
(0x18a9cda160cf66, (-24));
(0x15da851261987a, (-25));
(0x1218b3d91f0523, (-26));
(0x1bdb6bb92cf0a4, (-28));
(0x13cc147fae6fdc, (-29));
(0x19c4868ca104b3, (-31));
(0x1e64d64b4f98d2, (-33));
(0x10069b1bc1c259, (-34));
(0x1dac8ccc582976, (-37));
(0x1783b9b30b6f7b, (-39));
(0x1eb822e59e9229, (-42));
(0x1f20940af6494c, (-45));
(0x15d71fd8593cee, (-48));
(0x10000000000000, (-52))];
[(0x151cae20000000, (-25));
(0x17dec54d4af06c, (-24));
(0x19233d025fc520, (-23));
(0x18cd964884ed5e, (-22));
(0x1709c14b219ec2, (-21));
(0x1438a8baaaeb12, (-20));
(0x10d33da03f93b7, (-19));
(0x1a9c5f453b2b7e, (-19));
(0x140b60252d4da8, (-18));
(0x1cd0a7ceed1ff7, (-18));
(0x13cb5e07dfa27a, (-17));
(0x1a0642542b712c, (-17));
(0x10637e31c5988c, (-16));
(0x13ca8a00fc26f3, (-16));
(0x16eeaf386c05e9, (-16));
(0x1982b963935a5d, (-16));
(0x1b41bebce7f667, (-16));
(0x1bfabe39ef5619, (-16));
(0x1b99494744a14c, (-16));
(0x1a2925a54ca1b7, (-16));
(0x17d407a619127b, (-16));
(0x14d9fbdaea2349, (-16));
(0x11865d8331a4a5, (-16));
(0x1c47d74193a0bc, (-17));
(0x15e509bf27f84f, (-17));
(0x1040bdf37a6d57, (-17));
(0x171de5f3ee683c, (-18));
(0x1f779b94887a68, (-19));
(0x1478fa919b326c, (-19));
(0x196da811d79a2b, (-20));
(0x1e194d822fbea7, (-21));
(0x10f18467971ca0, (-21));
(0x121a6a5db9a45c, (-22));
(0x124ec88ef9197a, (-23));
(0x11784de3d159b8, (-24));
(0x1f58137f4f7f72, (-26));
(0x1a5172029bc877, (-27));
(0x1492e73f56dfda, (-28));
(0x1dc102fb00c217, (-30));
(0x13bdcd4b999165, (-31));
(0x17caca47acd3d8, (-33));
(0x19b2ce268241dc, (-35));
(0x186fe1d367ce55, (-37));
(0x13f3e807f66a32, (-39));
(0x1af4fdc174a5dd, (-42));
(0x1c5f15699aa7dd, (-45));
(0x14c8dc2e42397f, (-48));
(0x10000000000000, (-52))];
[(0x1ba58eb0000000, (-28));
(0x1142a5264f9eaf, (-26));
(0x13ee363eb203ab, (-25));
(0x1571ef3becee0e, (-24));
(0x15a13d602be6a2, (-23));
(0x148c1ae2bb7413, (-22));
(0x127457f266d124, (-21));
(0x1f70f7da6c51d1, (-21));
(0x197868d21010c8, (-20));
(0x13aa3e326081a8, (-19));
(0x1cfe96173edd3a, (-19));
(0x147119f49607c5, (-18));
(0x1b9a1b2a085196, (-18));
(0x11dd6ae53e9605, (-17));
(0x1630b96c065b37, (-17));
(0x1a77f327a216bb, (-17));
(0x1e562f7ff82f6d, (-17));
(0x10b689f56b09cd, (-16));
(0x11b5a68be811c4, (-16));
(0x120d07e8661d16, (-16));
(0x11b34b28ded239, (-16));
(0x10b2afcf3a0af1, (-16));
(0x1e4e6e173a375e, (-17));
(0x1a73731231609c, (-17));
(0x16323cc6fc9333, (-17));
(0x11e67314160318, (-17));
(0x1bbb19abd8ed8b, (-18));
(0x149e120536b5ba, (-18));
(0x1d66c86192f103, (-19));
(0x1415c57f7fff8d, (-19));
(0x1a428ff4fb890b, (-20));
(0x1067b17a23a021, (-20));
(0x138e5ddda3e947, (-21));
(0x16335cc5f71677, (-22));
(0x17f2c1640baece, (-23));
(0x187c114d546b73, (-24));
(0x17a78751ba6479, (-25));
(0x15844263648e51, (-26));
(0x1259759743a0b2, (-27));
(0x1d30d3fa3ece40, (-29));
(0x15850abb352bfb, (-30));
(0x1d2d5eec7023b3, (-32));
(0x1202321c3b1cb4, (-33));
(0x13fa8d8f3c64b3, (-35));
(0x139337cfaab649, (-37));
(0x108779ce7273d9, (-39));
(0x1731ffe9ed33f3, (-42));
(0x197d2d0524285b, (-45));
(0x139f152d0f5470, (-48));
(0x10000000000000, (-52))];
[(0x1d249400000000, (-31));
(0x144559ccf3e796, (-29));
(0x19d3d85a7a7b65, (-28));
(0x1e71c1e554a156, (-27));
(0x10ba383afbefbe, (-25));
(0x113d0321214f4f, (-24));
(0x10bd4d9204ecbc, (-23));
(0x1ec09ab50378fc, (-23));
(0x1ace53a1aca1b1, (-22));
(0x163b7adfeb7570, (-21));
(0x11956c9d56f98a, (-20));
(0x1a92e9a72efe7b, (-20));
(0x13373251c6822c, (-19));
(0x1aa10ba5cb47ff, (-19));
(0x11b37766c73b4b, (-18));
(0x1698f76ac40f0c, (-18));
(0x1bb970d059db23, (-18));
(0x105af4f35eab6b, (-17));
(0x129125722c8580, (-17));
(0x1449f300c565ea, (-17));
(0x1558d4fb45d4fc, (-17));
(0x15a1550d62e9c5, (-17));
(0x151be207de83b1, (-17));
(0x13d715af48c46c, (-17));
(0x11f5234441411c, (-17));
(0x1f4c164bc2f204, (-18));
(0x1a3fd0a2a380a9, (-18));
(0x152e07039959b2, (-18));
(0x106e764c699176, (-18));
(0x187f4838c8233b, (-19));
(0x11881b290974f5, (-19));
(0x18115484b5a254, (-20));
(0x1fa754dcfafdb3, (-21));
(0x13ea3bf8c47158, (-21));
(0x17f01a67ed0588, (-22));
(0x1b6fa9a7553246, (-23));
(0x1debb4824e3ffc, (-24));
(0x1ef88c4c5b6c12, (-25));
(0x1e56c6214c0a51, (-26));
(0x1c077cd7a5e87a, (-27));
(0x185253c9c386de, (-28));
(0x13b91ecd4d47e0, (-29));
(0x1db66f55cb91d1, (-31));
(0x14a1a48aa499d0, (-32));
(0x1a2885913f9cee, (-34));
(0x1de6c30f823afa, (-36));
(0x1e4c6c5ba96ea4, (-38));
(0x1a92d54ec6f0bb, (-40));
(0x1377af75482435, (-42));
(0x167aaa08b30a74, (-45));
(0x12548eb9151e85, (-48));
(0x10000000000000, (-52))];
[(0x181c0800000000, (-34));
(0x12ec31c523e8c2, (-32));
(0x1ad715919215be, (-31));
(0x1170d4eae25055, (-29));
(0x14fa5b9ef06300, (-28));
(0x17885958b03521, (-27));
(0x18c471bfbc1d47, (-26));
(0x1892cdb7a60f0e, (-25));
(0x1712e1ef707667, (-24));
(0x1491e1d6dd5ef5, (-23));
(0x1174fce990e236, (-22));
(0x1c45688c605f5a, (-22));
(0x15e2433e205e70, (-21));
(0x103847a1067f23, (-20));
(0x170dcb2424e954, (-20));
(0x1f74a08bad25c0, (-20));
(0x149effa51e4319, (-19));
(0x1a009699c27ecf, (-19));
(0x1f8e2ae9c61aeb, (-19));
(0x1270234e51fdc4, (-18));
(0x14c22dd8a81724, (-18));
(0x16860fb526ef7b, (-18));
(0x178f070e840d56, (-18));
(0x17c1de9cf10c92, (-18));
(0x17196f8e3b91ed, (-18));
(0x15a779026ced34, (-18));
(0x13919d5f0cdef4, (-18));
(0x110b367c1377dd, (-18));
(0x1c9abfa4a62f6e, (-19));
(0x171dc5689cd569, (-19));
(0x11fb1b0467ebfe, (-19));
(0x1ae7fede1f20a3, (-20));
(0x13591b1e1f0e41, (-20));
(0x1ab7ffc0561d4d, (-21));
(0x11b1e6679153ac, (-21));
(0x167375e03843e1, (-22));
(0x1b3ee2fdb81a6e, (-23));
(0x1f91eb48ad2115, (-24));
(0x116da4a938f998, (-24));
(0x124acb4affef57, (-25));
(0x12331567858039, (-26));
(0x111bb00731e69a, (-27));
(0x1e44ff1ac82e8f, (-29));
(0x191491ed710009, (-30));
(0x135993cb4e481e, (-31));
(0x1b99a4c6db03e4, (-33));
(0x12074255283754, (-34));
(0x154ffa9ef71029, (-36));
(0x166e408ce0e898, (-38));
(0x148a64aeb38981, (-40));
(0x1f9fd37a4ff6fb, (-43));
(0x135737d0f14724, (-45));
(0x10e1c7047b3b50, (-48));
(0x10000000000000, (-52))];
[(0x1e220000000000, (-38));
(0x1b33ac2b2ab8a0, (-36));
(0x15c0a59989946d, (-34));
(0x1f728e84fb5c39, (-33));
(0x14d5d3a3045132, (-31));
(0x198fe889f151bd, (-30));
(0x1d429fe059df40, (-29));
(0x1f6fe5c72b7b37, (-28));
(0x1fdac7b0d1aa7a, (-27));
(0x1e8f8fafccebc8, (-26));
(0x1bd98edb171193, (-25));
(0x182c252688a770, (-24));
(0x14074c727fc132, (-23));
(0x1fbec60a0408eb, (-23));
(0x181a4e77124498, (-22));
(0x118eac0a9a90ed, (-21));
(0x1891f260656cca, (-21));
(0x1087f6b8980d8c, (-20));
(0x15688c34ab612b, (-20));
(0x1ab3b8a7afb315, (-20));
(0x100c491fed9ce3, (-19));
(0x12995cd3e83a50, (-19));
(0x14caca29b5df4b, (-19));
(0x166d5e00435653, (-19));
(0x175888b6bdfda5, (-19));
(0x1774b7cf5455d9, (-19));
(0x16bf2624de28af, (-19));
(0x154a4c6728f4c2, (-19));
(0x133ad9a77fd4d0, (-19));
(0x10c1e0552c5582, (-19));
(0x1c2af1c10c5093, (-20));
(0x16d2b3836b887a, (-20));
(0x11d183982a8c29, (-20));
(0x1aca7f1ca5813e, (-21));
(0x136121a9559a87, (-21));
(0x1af3bcf71bfda8, (-22));
(0x11ff82d2904122, (-22));
(0x170e20d64268a5, (-23));
(0x1c492f0adcc9da, (-24));
(0x10975b98542ff3, (-24));
(0x12931464bfa65e, (-25));
(0x13ccee9462338f, (-26));
(0x140b7e4f91f901, (-27));
(0x1335e21d8c69b5, (-28));
(0x115d3c9d74efd3, (-29));
(0x1d79106e9b9c31, (-31));
(0x175aed326cce6c, (-32));
(0x11299884e1cfd5, (-33));
(0x172feda48b04e4, (-35));
(0x1c789d6b0cfd00, (-37));
(0x1f4958961fe840, (-39));
(0x1e1aff2faa6c53, (-41));
(0x188c8f111c6ed4, (-43));
(0x101235a34e5f9f, (-45));
(0x1e768d399dc46f, (-49));
(0x10000000000000, (-52))];
[(0x1abc0000000000, (-42));
(0x1ca294060c972d, (-40));
(0x1a51dd52346190, (-38));
(0x156fda9b4d1a0b, (-36));
(0x1f9372c8872fa4, (-35));
(0x15529c8873fa9a, (-33));
(0x1aac51149b5e68, (-32));
(0x1f24809055c0f1, (-31));
(0x11123784bb8004, (-29));
(0x11a8831d994ebe, (-28));
(0x114d2de51faff0, (-27));
(0x101c06aea84b14, (-26));
(0x1c9609787042ea, (-26));
(0x18394c22f6962f, (-25));
(0x13a4d2a3e51c22, (-24));
(0x1e8a26bcd4cce9, (-24));
(0x16c9ec92dffb5b, (-23));
(0x10581d6e21d7da, (-22));
(0x168ea0944c3651, (-22));
(0x1dfb26ed146f96, (-22));
(0x1333db6d52fecc, (-21));
(0x17b9054744b29b, (-21));
(0x1c478565b4a31e, (-21));
(0x10459842edf061, (-20));
(0x12155421538d9b, (-20));
(0x136989d25f3580, (-20));
(0x142209886348be, (-20));
(0x142ccc18232cd8, (-20));
(0x1388cb1e0ffe9a, (-20));
(0x1246295e2ffeb1, (-20));
(0x1083a2ee98a9de, (-20));
(0x1cd3a4ec02853f, (-21));
(0x184a9114ef9bef, (-21));
(0x13c13ff0c6d6ef, (-21));
(0x1efe775ae9c9de, (-22));
(0x177052e3499bf4, (-22));
(0x111331518590f1, (-22));
(0x17f1e50cfcbd34, (-23));
(0x1024c630e39e8b, (-23));
(0x14e817f397ce70, (-24));
(0x19f7ee89852892, (-25));
(0x1ee3c70cd3bfdf, (-26));
(0x118fd9a8a9ffd9, (-26));
(0x130c6f2a909767, (-27));
(0x13a8efe1037d99, (-28));
(0x134055f2db1d32, (-29));
(0x11d2c095a9db3c, (-30));
(0x1f1271c54894ca, (-32));
(0x195ec6d3cc96c0, (-33));
(0x1347c63b8e7e83, (-34));
(0x1b0e5635937a73, (-36));
(0x1157e476eb8694, (-37));
(0x1406bf06543d7b, (-39));
(0x1469a9e14fa2ad, (-41));
(0x11d155488fe073, (-43));
(0x19548fb52116ae, (-46));
(0x1a9bb78af6cabc, (-49));
(0x10000000000000, (-52))];
[(0x1e000000000000, (-47));
(0x1432803dca609f, (-44));
(0x160342aae0c6d9, (-42));
(0x14981d66dca35d, (-40));
(0x11141a9559a084, (-38));
(0x199f3d72302bc1, (-37));
(0x11a0e9a32478ba, (-35));
(0x1679e1b65b2d1e, (-34));
(0x1ac1c179627c51, (-33));
(0x1debbb7b808613, (-32));
(0x1f94da94faee9d, (-31));
(0x1f9689bab04238, (-30));
(0x1e099b737e005a, (-29));
(0x1b3ae05cb15ed5, (-28));
(0x17966210d2eaa9, (-27));
(0x138fffdb5de83c, (-26));
(0x1f1ed7ad0d34d4, (-26));
(0x17c66c2c0a70ce, (-25));
(0x1177ad279f207a, (-24));
(0x18b5c987a61b5f, (-24));
(0x10d7a52143568d, (-23));
(0x162479b7ba04ba, (-23));
(0x1c1810d18c2654, (-23));
(0x1135d50cb7c462, (-22));
(0x145f10389b8660, (-22));
(0x174e16b84f4c44, (-22));
(0x19c69d2d4ab5b0, (-22));
(0x1b9174c5c6821c, (-22));
(0x1c8453362d3644, (-22));
(0x1c882055bf2fda, (-22));
(0x1b9c82637f3691, (-22));
(0x19d7eb6918f92e, (-22));
(0x17642504e67de9, (-22));
(0x14781367bb540c, (-22));
(0x114ff39edbd241, (-22));
(0x1c4b24c0663aa2, (-23));
(0x1653ac9ae09011, (-23));
(0x110117a7409def, (-23));
(0x18fb33fd3ae484, (-24));
(0x11af3a2fb9e7ae, (-24));
(0x181b7fee7c9795, (-25));
(0x1f9b9ad9fb5f58, (-26));
(0x13e79c0d0eb1ca, (-26));
(0x180c324b8a3475, (-27));
(0x1bd27cf3b8c1c2, (-28));
(0x1ec426de4ac2c6, (-29));
(0x1038dccfbb5e9f, (-29));
(0x10453433e44031, (-30));
(0x1ef181b1a76fe3, (-32));
(0x1bcaabdf433861, (-33));
(0x1777a21a96ffbf, (-34));
(0x1286237b6b9124, (-35));
(0x1b24156372ee07, (-37));
(0x12480ebc25d288, (-38));
(0x165c6d7aed87ee, (-40));
(0x1865dcd55b7798, (-42));
(0x171f914b12ae72, (-44));
(0x1237a9ee850e7f, (-46));
(0x15e8add236a58e, (-49));
(0x10000000000000, (-52))];
[(0x10000000000000, (-52));
(0x1f3db2174e7468, (-50));
(0x1563a5dd397da7, (-47));
(0x17b6bad2875362, (-45));
(0x1693299e20c7b1, (-43));
(0x130e2cb66d63d4, (-41));
(0x1d1b88ed98e773, (-40));
(0x1465c6252223d6, (-38));
(0x1a7f488d985ceb, (-37));
(0x10134109a26007, (-35));
(0x12541c8ddb5a64, (-34));
(0x13bb94028ef3da, (-33));
(0x1423bed0d526d0, (-32));
(0x138cd00d04fa40, (-31));
(0x12198e62999c32, (-30));
(0x1004fb16e6d1f6, (-29));
(0x1b298d21661faf, (-29));
(0x1618a39517e1b6, (-28));
(0x1145ff8465b71b, (-27));
(0x19fc5d16ad4160, (-27));
(0x12d4186abe3e16, (-26));
(0x1a4f013e1257b9, (-26));
(0x11bcbd45c4eabf, (-25));
(0x1718d2f70ff4ec, (-25));
(0x1d1023f65a5dd6, (-25));
(0x11ada9285810e5, (-24));
(0x14cd54a2037a41, (-24));
(0x17af27d5b3b99f, (-24));
(0x1a1945a62d92c1, (-24));
(0x1bd72b8feef633, (-24));
(0x1cc0e8e1be44c3, (-24));
(0x1cc0e8e1be44c3, (-24));
(0x1bd72b8feef633, (-24));
(0x1a1945a62d92c1, (-24));
(0x17af27d5b3b99f, (-24));
(0x14cd54a2037a41, (-24));
(0x11ada9285810e5, (-24));
(0x1d1023f65a5dd6, (-25));
(0x1718d2f70ff4ec, (-25));
(0x11bcbd45c4eabf, (-25));
(0x1a4f013e1257b9, (-26));
(0x12d4186abe3e16, (-26));
(0x19fc5d16ad4160, (-27));
(0x1145ff8465b71b, (-27));
(0x1618a39517e1b6, (-28));
(0x1b298d21661faf, (-29));
(0x1004fb16e6d1f6, (-29));
(0x12198e62999c32, (-30));
(0x138cd00d04fa40, (-31));
(0x1423bed0d526d0, (-32));
(0x13bb94028ef3da, (-33));
(0x12541c8ddb5a64, (-34));
(0x10134109a26007, (-35));
(0x1a7f488d985ceb, (-37));
(0x1465c6252223d6, (-38));
(0x1d1b88ed98e773, (-40));
(0x130e2cb66d63d4, (-41));
(0x1693299e20c7b1, (-43));
(0x17b6bad2875362, (-45));
(0x1563a5dd397da7, (-47));
(0x1f3db2174e7468, (-50));
(0x10000000000000, (-52))]];
   [[(0x10000000000000, (-52))];
[(0x1f000000000000, (-44));
(0x1f7efbeb8d4f11, (-48));
(0x10000000000000, (-52))];
[(0x13fb0000000000, (-37));
(0x14521785e6c54d, (-40));
(0x1ef7fef779a75f, (-44));
(0x1f76da19a7630c, (-48));
(0x10000000000000, (-52))];
[(0x14858800000000, (-32));
(0x1f5eb680618278, (-35));
(0x13f0a7fd3c4771, (-37));
(0x144255fd1d77f5, (-40));
(0x1edffbdaafea7e, (-44));
(0x1f6690246a9d1f, (-48));
(0x10000000000000, (-52))];
[(0x16720cc0000000, (-28));
(0x16f1a06233fb7f, (-30));
(0x147585c17e6564, (-32));
(0x1f360d01142ade, (-35));
(0x13d1aff4dfd64f, (-37));
(0x1422df19785db8, (-40));
(0x1eb7f69fe5917b, (-44));
(0x1f4e115049ec25, (-48));
(0x10000000000000, (-52))];
[(0x1e4d2ad0000000, (-25));
(0x137039a04d67d9, (-26));
(0x165a8c692f9307, (-28));
(0x16c7c73b0e99c9, (-30));
(0x1445b0b2ab0a82, (-32));
(0x1ee5188742d052, (-35));
(0x139e47e6b60a2c, (-37));
(0x13f3cb467e6629, (-40));
(0x1e7fef368a119e, (-44));
(0x1f2d4a4563563f, (-48));
(0x10000000000000, (-52))];
[(0x1b9aa96d000000, (-22));
(0x155c1ea58bc7df, (-23));
(0x1e252934022399, (-25));
(0x13425033108106, (-26));
(0x1614794bed89f0, (-28));
(0x1674b7968348ae, (-30));
(0x13f69d59996c92, (-32));
(0x1e6c95a2a15a36, (-35));
(0x1356bfd26471cf, (-37));
(0x13b53f4cfc8647, (-40));
(0x1e37e586b49a21, (-44));
(0x1f0420c1e6308c, (-48));
(0x10000000000000, (-52))];
[(0x1202cd7da00000, (-19));
(0x105ca32d5d90a7, (-20));
(0x1b6e72dd9ef91a, (-22));
(0x151de22eb6331d, (-23));
(0x1dae1f807ca041, (-25));
(0x12e7787d05fb38, (-26));
(0x15a11ae5c76878, (-28));
(0x15f9b451f322a1, (-30));
(0x13894195bc5e5c, (-32));
(0x1dcd9df934859a, (-35));
(0x12fb87b7668068, (-37));
(0x13676c83603f95, (-40));
(0x1ddfd9705f148b, (-44));
(0x1ed2732e34c7ef, (-48));
(0x10000000000000, (-52))];
[(0x118f885a7c0000, (-17));
(0x125e1d5585d366, (-18));
(0x11e0b3c781ba3d, (-19));
(0x1023a580748119, (-20));
(0x1aeb2d2847d4c5, (-22));
(0x14a322219f41d0, (-23));
(0x1ceaf772d1568f, (-25));
(0x1261a26c571e69, (-26));
(0x15028baaa8529f, (-28));
(0x15589b9696b7f6, (-30));
(0x12fef21fe15924, (-32));
(0x1d09a6d63eb526, (-35));
(0x128d2f95070f61, (-37));
(0x130a910fcdebd3, (-40));
(0x1d77caca54fbdb, (-44));
(0x1e98180e9b47f1, (-48));
(0x10000000000000, (-52))];
[(0x1a65fd7fa80000, (-16));
(0x1f54f4cbbaf5c7, (-17));
(0x1168f1934cdfc7, (-17));
(0x1213466c8ec7a4, (-18));
(0x117bae1b3e9744, (-19));
(0x1f673868d64dbc, (-21));
(0x1a14e3ec77eaa2, (-22));
(0x13ef408cace3f3, (-23));
(0x1be072b0a0f0fb, (-25));
(0x11b3a625f20cd6, (-26));
(0x143bae14d7e8b6, (-28));
(0x1493df88f48835, (-30));
(0x12595f0a298430, (-32));
(0x1c227f3a06359d, (-35));
(0x120c676a57242c, (-37));
(0x129ef83d6dec59, (-40));
(0x1cffb960c47df0, (-44));
(0x1e54dd4ce75f1d, (-48));
(0x10000000000000, (-52))];
[(0x1f54aad7820000, (-15));
(0x14dd2e22a1c4cf, (-15));
(0x1a238d89d8dfe8, (-16));
(0x1ec1edceef8f34, (-17));
(0x10f6e3471ecd48, (-17));
(0x1180a67b76c5d4, (-18));
(0x10d781fe0099a0, (-19));
(0x1e20a8dad145b4, (-21));
(0x18f2262b6bb404, (-22));
(0x130729d4e8d7bc, (-23));
(0x1a9505a7271c9a, (-25));
(0x10e1317eef9617, (-26));
(0x13501d8cf88b5e, (-28));
(0x13ae7c9d15e2fe, (-30));
(0x119a8f3ffffbe8, (-32));
(0x1b1a4d66c5cb15, (-35));
(0x1179ff36212b65, (-37));
(0x1224fae6ebb7fc, (-40));
(0x1c77a4f3590b88, (-44));
(0x1e088752305a6a, (-48));
(0x10000000000000, (-52))];
[(0x1de817709f0000, (-14));
(0x162777e0c4e533, (-14));
(0x1efb3f7b524980, (-15));
(0x146db5c57d3874, (-15));
(0x195fa8f3e8feff, (-16));
(0x1da2e4b49dbbc2, (-17));
(0x103e64343dd91f, (-17));
(0x10ac2cc93e37d2, (-18));
(0x1ff482c6b35c41, (-20));
(0x1c7e9338584732, (-21));
(0x178bc1d6bce7ed, (-22));
(0x11f127d3351dad, (-23));
(0x1910a50de1de1d, (-25));
(0x1fdd5fd0e6d940, (-27));
(0x12441b6204de73, (-28));
(0x12abeda1a8e808, (-30));
(0x10c4db060caa0e, (-32));
(0x19f38be5fa9d0f, (-35));
(0x10d6e6f6d77a33, (-37));
(0x119cfff8bb95f0, (-40));
(0x1bdf8d32bc59be, (-44));
(0x1db2cfe686fe7c, (-48));
(0x10000000000000, (-52))];
[(0x174bfbff9d4000, (-13));
(0x1310e261419464, (-13));
(0x1d88012456c584, (-14));
(0x15a1da7ffa0e78, (-14));
(0x1df4429bf56e0b, (-15));
(0x1394e604900bff, (-15));
(0x182450fc598a20, (-16));
(0x1c056907cefece, (-17));
(0x1e8ef75a68ef8e, (-18));
(0x1f3ca7d979ac52, (-19));
(0x1dd7f63f278086, (-20));
(0x1a8eca3d5efea4, (-21));
(0x15ec6821325a88, (-22));
(0x10b4a881716ea1, (-23));
(0x175c878143cedc, (-25));
(0x1dc25aa96e5f64, (-27));
(0x111c78194c4d2d, (-28));
(0x11901d991c27be, (-30));
(0x1fb5caf4456913, (-33));
(0x18b105ffff4560, (-35));
(0x10242eaa7c5a82, (-37));
(0x11077d0e795c0c, (-40));
(0x1b3771bd4c7416, (-44));
(0x1d5364c8cb8f86, (-48));
(0x10000000000000, (-52))];
[(0x1df699f7a08000, (-13));
(0x1af1a030eeab5e, (-13));
(0x16f82d594af258, (-13));
(0x128fe695ce0c2c, (-13));
(0x1c6e2a58824e55, (-14));
(0x149efcf8c73666, (-14));
(0x1c4f10349d4374, (-15));
(0x125e84007618ef, (-15));
(0x1681608f353f4e, (-16));
(0x19fcaa538f8555, (-17));
(0x1c3964f50d45b4, (-18));
(0x1cc34f532d0abe, (-19));
(0x1b6ca3f6f9f99c, (-20));
(0x18615b0ade25d5, (-21));
(0x14203e85c3d626, (-22));
(0x1eb3f494d83e84, (-24));
(0x1582dd08b0f3ae, (-25));
(0x1b7c6976717a99, (-27));
(0x1fbcf2dcdc66ad, (-29));
(0x105f577cd91648, (-30));
(0x1dbf2a26523821, (-33));
(0x1755d39e6e85e3, (-35));
(0x1ec60c9d0228ce, (-38));
(0x1064f72fa0eab9, (-40));
(0x1a7f521ac09c48, (-44));
(0x1ce9e5ec2bda7f, (-48));
(0x10000000000000, (-52))];
[(0x100d40325f2000, (-12));
(0x1f95861b30739c, (-13));
(0x1d7e612f2200d4, (-13));
(0x1a261c6b7b09ec, (-13));
(0x16030fa1cf871b, (-13));
(0x11970c5972b6cc, (-13));
(0x1aad35f5f5b063, (-14));
(0x132ed58fc8bc49, (-14));
(0x1a23cc0c0508a1, (-15));
(0x10db0b3ee4d4c4, (-15));
(0x148b64cc6e42fb, (-16));
(0x17a02fa6aac5d6, (-17));
(0x1994dbc7cd4913, (-18));
(0x1a045d477a928a, (-19));
(0x18c800df5d4768, (-20));
(0x1607d31d8f0458, (-21));
(0x12346158620a76, (-22));
(0x1bd400ef63b246, (-24));
(0x138e7eb085ba8b, (-25));
(0x191755ff53a503, (-27));
(0x1d1f7ad6a6450c, (-29));
(0x1e3c68184ccdd8, (-31));
(0x1bac1641f70c70, (-33));
(0x15e55490113302, (-35));
(0x1d297bbf304c25, (-38));
(0x1f6c0762251161, (-41));
(0x19b72db657c721, (-44));
(0x1c75e34235a6bc, (-48));
(0x10000000000000, (-52))];
[(0x1cdb346fbd4000, (-13));
(0x1ef4fa274a2a21, (-13));
(0x1f8b343fcceb11, (-13));
(0x1e8c0797ff9711, (-13));
(0x1c1fd76ff972aa, (-13));
(0x189f3691d20793, (-13));
(0x147ed9dd81ab42, (-13));
(0x10379af7d46828, (-13));
(0x18622ce8b87ca8, (-14));
(0x1167810cce6d64, (-14));
(0x179159e48ec08f, (-15));
(0x1e3ccb0a582abe, (-16));
(0x125a2408a58e8c, (-16));
(0x150a4b4ddc6894, (-17));
(0x16bc617161344c, (-18));
(0x1719833c5fba61, (-19));
(0x1600a05d34c741, (-20));
(0x139477202af3f7, (-21));
(0x10365d647f18e3, (-22));
(0x18dbc51c0b1274, (-24));
(0x118a98ab67753c, (-25));
(0x169f4e35c71164, (-27));
(0x1a6c362046ea16, (-29));
(0x1ba30b9bfb9250, (-31));
(0x198334988085ea, (-33));
(0x14632b230d915b, (-35));
(0x1b758ab2e9cb76, (-38));
(0x1df69284c67691, (-41));
(0x18df03d6fcc4b9, (-44));
(0x1bf6d9ef178c07, (-48));
(0x10000000000000, (-52))];
[(0x15dffa54b4a000, (-13));
(0x1986b9cc90b803, (-13));
(0x1c4c1eedf63ffe, (-13));
(0x1dd3f94ba78b7f, (-13));
(0x1deac64d72b0f8, (-13));
(0x1c90898d52a14a, (-13));
(0x19f819b0f11f12, (-13));
(0x167b4bb6566653, (-13));
(0x1287a97bd94e28, (-13));
(0x1d12782655f841, (-14));
(0x15b1b56584bd3f, (-14));
(0x1ec695c5fccba6, (-15));
(0x14bad205cb3da8, (-15));
(0x1a7cce6ec34c4f, (-16));
(0x1006f3d5b1e3bc, (-16));
(0x125669fe1a709b, (-17));
(0x13cba0011ac286, (-18));
(0x141cb650801868, (-19));
(0x132d1abc1da9a1, (-20));
(0x111974e1118838, (-21));
(0x1c674d2ce1445c, (-23));
(0x15dd73528d36ca, (-24));
(0x1f04a3573aa87f, (-26));
(0x142090fcbccfda, (-27));
(0x17af022673e703, (-29));
(0x18fc86e6b1582f, (-31));
(0x174b782c5e6a09, (-33));
(0x12d336078f302a, (-35));
(0x19ad596cdf4e5e, (-38));
(0x1c6b026010ca9c, (-41));
(0x17f6d39483eb79, (-44));
(0x1b6c30b83593e6, (-48));
(0x10000000000000, (-52))];
[(0x1c132329a20000, (-14));
(0x11c96df4751ffb, (-13));
(0x156788bdb91feb, (-13));
(0x187e53e4e286e1, (-13));
(0x1aadd2964e9fac, (-13));
(0x1bae6e3d5471bd, (-13));
(0x1b5fb68c62ddd9, (-13));
(0x19ceef6cb18bdd, (-13));
(0x1733a552090337, (-13));
(0x13e36eb0a15900, (-13));
(0x10407782b7efb1, (-13));
(0x194f33a231723f, (-14));
(0x12c4a6858fc26c, (-14));
(0x1a7cce6ec34c4f, (-15));
(0x11c4b404f7596b, (-15));
(0x16a268a94acf1e, (-16));
(0x1b5604ee610f2f, (-17));
(0x1f3ebe77cf2e95, (-18));
(0x10dd538eef7e03, (-18));
(0x1126d6241841a8, (-19));
(0x1062fb4b1f800d, (-20));
(0x1d5036141e0e17, (-22));
(0x187223cf83e921, (-23));
(0x12ea7e1fc0803d, (-24));
(0x1b00e4a760c539, (-26));
(0x11a719823356f3, (-27));
(0x14f3a6a2214644, (-29));
(0x1652e19c848386, (-31));
(0x150c0ab0861f72, (-33));
(0x1139896a07b40c, (-35));
(0x17d447de00bc94, (-38));
(0x1acaf1cc6793ed, (-41));
(0x16fe9bc8b3f5c0, (-44));
(0x1ad5336963eefb, (-48));
(0x10000000000000, (-52))];
[(0x1e91fe774a0000, (-15));
(0x15025c71f8f7c5, (-14));
(0x1b67639248b94c, (-14));
(0x10fd0604d2f55c, (-13));
(0x140c2f686c8048, (-13));
(0x168a738f02e274, (-13));
(0x182ad51054bb06, (-13));
(0x18b913af2dd95d, (-13));
(0x182438d67a1cd9, (-13));
(0x1681cf0b2a9c67, (-13));
(0x1408f3e1577a51, (-13));
(0x1106c5887cd3d3, (-13));
(0x1b9edc7b4416ec, (-14));
(0x155f5e83e232ae, (-14));
(0x1f88bc46718894, (-15));
(0x16293ac9efd419, (-15));
(0x1da43e0edf8fee, (-16));
(0x12d7674c39e52e, (-16));
(0x16bb7130c62537, (-17));
(0x19fba10816086f, (-18));
(0x1c13b0a5bc7d12, (-19));
(0x1c9ce2c68bac7f, (-20));
(0x1b6b8bfeee6acc, (-21));
(0x18a0420a8750c4, (-22));
(0x14a4b17c7aefc0, (-23));
(0x1012fe83e04d94, (-24));
(0x171e1f762062c5, (-26));
(0x1e7c96dfe4c06d, (-28));
(0x12458f28496356, (-29));
(0x13b00d32fb934f, (-31));
(0x12cc3387959e2e, (-33));
(0x1f34ce608e0b64, (-36));
(0x15edf5f1f2341f, (-38));
(0x1918278802049a, (-41));
(0x15f65afa12a6cf, (-44));
(0x1a310ccf3b375f, (-48));
(0x10000000000000, (-52))];
[(0x1c43fbab1c0000, (-16));
(0x15108db47740b5, (-15));
(0x1dc1e14ca10656, (-15));
(0x13f63ab3eda6ba, (-14));
(0x197a47f653fa84, (-14));
(0x1efa08b8864e37, (-14));
(0x11f571c59630ef, (-13));
(0x13e030a9647ccb, (-13));
(0x1502ae5c4996c3, (-13));
(0x153949d443bdea, (-13));
(0x147e5a4ce906ff, (-13));
(0x12eb145ec39607, (-13));
(0x10b220911e3b44, (-13));
(0x1c2ae453d7b8f7, (-14));
(0x16b4364f695d91, (-14));
(0x117a3e3527d266, (-14));
(0x19ae86526cbc09, (-15));
(0x11fe42ee1d81df, (-15));
(0x1804a83b09fd41, (-16));
(0x1e80cd69751dc6, (-17));
(0x1266aa2d3b4417, (-17));
(0x150dbb2ba2e6ca, (-18));
(0x16cbe56f09aa9c, (-19));
(0x174d77bd787c1d, (-20));
(0x166c4625249505, (-21));
(0x143e1171218325, (-22));
(0x1113573d121a69, (-23));
(0x1aca52dbcb2bf7, (-25));
(0x136e781bf1089d, (-26));
(0x19e144abab00d9, (-28));
(0x1f5f09b33220d9, (-30));
(0x111db2a9e96c5a, (-31));
(0x10933cc296d7cc, (-33));
(0x1bf46c7f646317, (-36));
(0x13fe438cb598d9, (-38));
(0x17549aa7bfe8a9, (-41));
(0x14de0f3d390593, (-44));
(0x197ebeb6d6bbf3, (-48));
(0x10000000000000, (-52))];
[(0x162d76b1940000, (-17));
(0x11edf5128c10fb, (-16));
(0x1b6d48d9d08540, (-16));
(0x13e56767870dc9, (-15));
(0x1b6f56a18e6d54, (-15));
(0x120210fe8698f9, (-14));
(0x1689f282a54db8, (-14));
(0x1aecffe7217b5e, (-14));
(0x1ebb2def83bd85, (-14));
(0x10c44c27472b09, (-13));
(0x11806786127e70, (-13));
(0x117b6f37bb3015, (-13));
(0x10b6f86d69f05a, (-13));
(0x1e984d2313082f, (-14));
(0x1acd0fe3eaf195, (-14));
(0x1677728fc68864, (-14));
(0x1203f1b1d03659, (-14));
(0x1b9f82e0adfb01, (-15));
(0x143baa10682fab, (-15));
(0x1c4b4dbe22c2d8, (-16));
(0x12dd7a415b9b0d, (-16));
(0x17f571507c670e, (-17));
(0x1cef7a1776b7c8, (-18));
(0x10963cfbbb8963, (-18));
(0x1203cc2bf42cd0, (-19));
(0x127d8d1bf61c6b, (-20));
(0x11e27977ef2a9e, (-21));
(0x103f44e86d6b44, (-22));
(0x1b9d65f1ec1c04, (-24));
(0x15d9b530cf88d5, (-25));
(0x1001808aa3f27c, (-26));
(0x158ecd8c037670, (-28));
(0x1a76d383debed3, (-30));
(0x1d49fe128d4948, (-32));
(0x1cd0ac3e5ee441, (-34));
(0x18baf158d22199, (-36));
(0x12095087085a96, (-38));
(0x1582780b568313, (-41));
(0x13b5b6075f489f, (-44));
(0x18bd171a07e38a, (-48));
(0x10000000000000, (-52))];
[(0x1d77934ce00000, (-19));
(0x19dfaad9759633, (-18));
(0x1570ca6724f835, (-17));
(0x10d1c2f9d6cc18, (-16));
(0x190b651c8ede95, (-16));
(0x11bbd54477f9fc, (-15));
(0x17ed6006430fec, (-15));
(0x1ecd8bfa077325, (-15));
(0x12f0b906330636, (-14));
(0x1645af0ebd5d33, (-14));
(0x19100d324221ff, (-14));
(0x1b01452ac428d3, (-14));
(0x1bdfc9cc08a78b, (-14));
(0x1b91cc9675fba4, (-14));
(0x1a220cd32b3ee4, (-14));
(0x17bd8242c866ca, (-14));
(0x14aa8fee021bfc, (-14));
(0x113c11013b7f3f, (-14));
(0x1b86ea2395a409, (-15));
(0x150a11489e82fa, (-15));
(0x1ec24d20aa9c05, (-16));
(0x157c347737123c, (-16));
(0x1ca687d7338f43, (-17));
(0x1236223abac133, (-17));
(0x1609f54c58b7a9, (-18));
(0x1958207400f934, (-19));
(0x1ba3a14447b332, (-20));
(0x1c8414327730f7, (-21));
(0x1bc16002616b12, (-22));
(0x1966e68aeadf6c, (-23));
(0x15c64057f6b0db, (-24));
(0x116674554ce2c8, (-25));
(0x19c787470dd67c, (-27));
(0x1194d74dcf58b1, (-28));
(0x15e3ef2f2841a8, (-30));
(0x189cdeaaa49030, (-32));
(0x18a4ec09c9bd31, (-34));
(0x15918151290fc9, (-36));
(0x10137ca892347c, (-38));
(0x13a4292378dcb9, (-41));
(0x127d4be91b5b82, (-44));
(0x17eaa126f15283, (-48));
(0x10000000000000, (-52))];
[(0x108250e6e00000, (-20));
(0x1f8d7ec71ccc72, (-20));
(0x1c5d58ae1ad32b, (-19));
(0x1813f921307897, (-18));
(0x135c4dc817a243, (-17));
(0x1d914d695e3054, (-17));
(0x157cc77e647407, (-16));
(0x1dc68691757ea5, (-16));
(0x13b2bf6e67bc06, (-15));
(0x18eaa0a119bc73, (-15));
(0x1e29549d674b81, (-15));
(0x117c04a5d81de3, (-14));
(0x136d9b743a7a58, (-14));
(0x14b34bd502c159, (-14));
(0x1528175f3ac3cd, (-14));
(0x14beea1a46f01b, (-14));
(0x1384f4aade436e, (-14));
(0x119f086e171616, (-14));
(0x1e8556962ebcab, (-15));
(0x1959494aaca3f5, (-15));
(0x142e8640179d14, (-15));
(0x1ec9bd8a7ec6a1, (-16));
(0x167ba58cbd06a3, (-16));
(0x1f68a57dcdb80e, (-17));
(0x14f684d737e886, (-17));
(0x1ab430ef457d4d, (-18));
(0x10351bb34587ea, (-18));
(0x12b6fa3bf22f16, (-19));
(0x1483e37f072413, (-20));
(0x154c99c00168c9, (-21));
(0x14e2b6faf6e67b, (-22));
(0x1347ba1f473923, (-23));
(0x10b0e294f9dc1f, (-24));
(0x1afa0672a83606, (-26));
(0x143cdb6a896de0, (-27));
(0x1bff58faa98797, (-29));
(0x11b50753e1dbb0, (-30));
(0x144339878a65e1, (-32));
(0x14b07101b4eb13, (-34));
(0x128147fedbc136, (-36));
(0x1c42cf3c84b9c5, (-39));
(0x11bc5c78db0910, (-41));
(0x1134cc2166da17, (-44));
(0x17059005e2c01d, (-48));
(0x10000000000000, (-52))];
[(0x1f021fbf000000, (-23));
(0x102ced565e1af2, (-21));
(0x1f9e2ac4757789, (-21));
(0x1d158d003e1e92, (-20));
(0x1946d2e955a5d7, (-19));
(0x14d1f03f968c94, (-18));
(0x104bb57c341136, (-17));
(0x184ad105c9ee19, (-17));
(0x1146264dbc6407, (-16));
(0x1779288db5821e, (-16));
(0x1e8430f6ce1a7c, (-16));
(0x12ff6cd4ea4f82, (-15));
(0x16ac7320199b9c, (-15));
(0x19f529e16007f1, (-15));
(0x1c85925458caec, (-15));
(0x1e1738d3b7508d, (-15));
(0x1e7d6b15d403f1, (-15));
(0x1dad3c7defed8b, (-15));
(0x1bbf65ab3e5808, (-15));
(0x18eb905f01da4c, (-15));
(0x157e448c751f06, (-15));
(0x11cbecec65f6b1, (-15));
(0x1c47d74193a0bc, (-16));
(0x158cc3a53e8830, (-16));
(0x1f793e02c974f2, (-17));
(0x1601abd9ff75dd, (-17));
(0x1d6f54bf7c21bf, (-18));
(0x12ce257b79b1aa, (-18));
(0x16ebb99fc54f36, (-19));
(0x1a9a96fcfb7a65, (-20));
(0x1d58ccd8866e7b, (-21));
(0x1eb208a64bf0f3, (-22));
(0x1e5c26abbed910, (-23));
(0x1c4df607a70917, (-24));
(0x18c796d59f9b49, (-25));
(0x14478ce11119da, (-26));
(0x1edc5adf024fc8, (-28));
(0x15afcdb60682b3, (-29));
(0x1beb27bda96b3d, (-31));
(0x104a1436321447, (-32));
(0x10ff787ddbed0d, (-34));
(0x1f26b75d3ddba6, (-37));
(0x186fe1d367ce55, (-39));
(0x1f9c21278a6398, (-42));
(0x1fb85fd7146893, (-45));
(0x160b9fd68a4554, (-48));
(0x10000000000000, (-52))];
[(0x1830dcda000000, (-25));
(0x1bad9871dc16be, (-24));
(0x1d811d603f7968, (-23));
(0x1d79fc5dc1f0e0, (-22));
(0x1bbb0ddb7304d5, (-21));
(0x18a92b6bb065e8, (-20));
(0x14cbe45bd9559f, (-19));
(0x10ac9c27f09814, (-18));
(0x197a598a2d4828, (-18));
(0x1294e9974bc5a3, (-17));
(0x19ea2ab70d95c6, (-17));
(0x114cea98997fc6, (-16));
(0x16238f295a9cde, (-16));
(0x1b2d701e00f8a1, (-16));
(0x1003b5aa82f705, (-15));
(0x12212efec95967, (-15));
(0x13b9812dfb4f5d, (-15));
(0x14a18b077c785b, (-15));
(0x14c0084d882d82, (-15));
(0x1412010519db2c, (-15));
(0x12ab3ebdd6e532, (-15));
(0x10b2afcf3a0af1, (-15));
(0x1cb739174330fd, (-16));
(0x17ba913b329e41, (-16));
(0x12d5b14fc865b3, (-16));
(0x1cb44453ff4bd3, (-17));
(0x14fb7eac864df6, (-17));
(0x1d66c86192f103, (-18));
(0x13b91e8e2aa393, (-18));
(0x194e05ed7ec8e1, (-19));
(0x1f00ac9cd1d114, (-20));
(0x121afeb0b19baf, (-20));
(0x141efc0ef8e8d2, (-21));
(0x153a55783ee45f, (-22));
(0x15344e46700ee7, (-23));
(0x13fddb12a3a963, (-24));
(0x11b9740831f88a, (-25));
(0x1d6cb161f96e1d, (-27));
(0x16bec7dbac7ffc, (-28));
(0x104471ba76832e, (-29));
(0x155b050656d871, (-31));
(0x1977cd24f7a18e, (-33));
(0x1b39f5f8301a82, (-35));
(0x19a1397b01e968, (-37));
(0x14b86f865b5f23, (-39));
(0x1bb9445f551d62, (-42));
(0x1ce6da9d787b27, (-45));
(0x14f9e6bbc4ecb3, (-48));
(0x10000000000000, (-52))];
[(0x1ef6dd40000000, (-28));
(0x138c96bc6e2889, (-26));
(0x16d5516bff7900, (-25));
(0x18db9386b50596, (-24));
(0x195fc73245793a, (-23));
(0x1866d9532f677e, (-22));
(0x16319012839618, (-21));
(0x1326aed88932c9, (-20));
(0x1f70f7da6c51d1, (-20));
(0x189b50621cda27, (-19));
(0x12651a63d774df, (-18));
(0x1a4fe3263c72fc, (-18));
(0x1207295fe8c409, (-17));
(0x17b182bc56b818, (-17));
(0x1de4ca939f2270, (-17));
(0x121e4abeab506b, (-16));
(0x151d568980e482, (-16));
(0x17ab18ada7a9ec, (-16));
(0x1987937cfd3790, (-16));
(0x1a8158cbe4b1ae, (-16));
(0x1a7dd1bacd7a01, (-16));
(0x197dcf01dfe1fc, (-16));
(0x179d51ea881b5b, (-16));
(0x150e9f3192afde, (-16));
(0x1211c7d809951b, (-16));
(0x1dd52be5bb51f5, (-17));
(0x17ae02cba133eb, (-17));
(0x120feba604949a, (-17));
(0x1a75c2458e77af, (-18));
(0x12985afa4a00ba, (-18));
(0x190cea6e174f19, (-19));
(0x102736cb3765a3, (-19));
(0x13ea3bf8c47158, (-20));
(0x176f1374bd6bb9, (-21));
(0x1a44a5238f6d64, (-22));
(0x1bfcff807eb9f1, (-23));
(0x1c45bdb34013df, (-24));
(0x1afe89aafb5b77, (-25));
(0x184627940e12c4, (-26));
(0x14783c3aeaf140, (-27));
(0x101a96e80970bd, (-28));
(0x177d6a2fca62c2, (-30));
(0x1f83d7b167723b, (-32));
(0x134081addd7d1b, (-33));
(0x1524bbed20a1be, (-35));
(0x14831f95d1be2c, (-37));
(0x112735c096d850, (-39));
(0x17d7be3cb5c03c, (-42));
(0x19f4e9f1b5859c, (-45));
(0x13cc8a99af5452, (-48));
(0x10000000000000, (-52))];
[(0x1ff1f100000000, (-31));
(0x1674c2f3d39e9e, (-29));
(0x1cec15f4ba354e, (-28));
(0x113c33016e9f2c, (-26));
(0x132776ff8a0797, (-25));
(0x13f7d46390b1a3, (-24));
(0x139ecdca51e7d7, (-23));
(0x123dccfa05860d, (-22));
(0x1019346631e8bc, (-21));
(0x1b0b538b5478fd, (-21));
(0x15ab5e5532df35, (-20));
(0x109820419456ea, (-19));
(0x18546b7189beb4, (-19));
(0x1118e320b19176, (-18));
(0x170fbc0d77f01e, (-18));
(0x1de1feeb17b0aa, (-18));
(0x129d6459e871d9, (-17));
(0x1650208a4f9345, (-17));
(0x19bf505ae32b5b, (-17));
(0x1c9d1721ee288b, (-17));
(0x1ea2b0fc630f79, (-17));
(0x1f9b78fa167740, (-17));
(0x1f6d8ea5585876, (-17));
(0x1e1e2d4b5cf39b, (-17));
(0x1bd0b837f51123, (-17));
(0x18c0b793e9a528, (-17));
(0x153827fa8b4a8d, (-17));
(0x11843fd8ac0d22, (-17));
(0x1bd5f0a89bb8c0, (-18));
(0x154677c99dde61, (-18));
(0x1f4320ad7e9a33, (-19));
(0x160f68df4f42fa, (-19));
(0x1ddf59f526aa05, (-20));
(0x136241c0a8e05d, (-20));
(0x181376f57ba90b, (-21));
(0x1c9352a78cc2fe, (-22));
(0x102cc05817ab02, (-22));
(0x116da4a938f998, (-23));
(0x11d4391e42e411, (-24));
(0x1143feab988f33, (-25));
(0x1f8bbeb36fef53, (-27));
(0x1b12e9c5d181a8, (-28));
(0x15b86072d47a97, (-29));
(0x103075cb431e3f, (-30));
(0x164081085d6231, (-32));
(0x1bededbd6aabbf, (-34));
(0x1f9c864db90c71, (-36));
(0x1fb8c557a4b28b, (-38));
(0x1b8edffa1f1b63, (-40));
(0x14003fff999ae1, (-42));
(0x16e25c34c3a656, (-45));
(0x127e451bb944c3, (-48));
(0x10000000000000, (-52))];
[(0x19e53800000000, (-34));
(0x14874b94e90a65, (-32));
(0x1d6a9b334e53b7, (-31));
(0x135096f6290f9d, (-29));
(0x177af6b19774da, (-28));
(0x1aa0923a5b5fcf, (-27));
(0x1c5646ded0a0c8, (-26));
(0x1c6f98e5880fec, (-25));
(0x1b031dd585907c, (-24));
(0x185e5cffb42f61, (-23));
(0x14ef17439eda0f, (-22));
(0x1129dfa0dc6629, (-21));
(0x1ae9ceb9dbab9c, (-21));
(0x1435f594560df4, (-20));
(0x1d1d920283ff87, (-20));
(0x1423be0f2e741a, (-19));
(0x1ac8909f835616, (-19));
(0x11229415eb5f96, (-18));
(0x151c1cb8e74593, (-18));
(0x190e0f1466565f, (-18));
(0x1ca9c0a95b581b, (-18));
(0x1f9e5101d79655, (-18));
(0x10d206803280be, (-17));
(0x1143b4decdc448, (-17));
(0x1118a719566105, (-17));
(0x10556e3723d825, (-17));
(0x1e1be2cff55931, (-18));
(0x1ac4514742be2f, (-18));
(0x16f227b110a81a, (-18));
(0x12f603f5c305b0, (-18));
(0x1e312ace65792c, (-19));
(0x1725949f78c9f2, (-19));
(0x11137371d370fd, (-19));
(0x18396a13ab0128, (-20));
(0x1081359ec4f2b7, (-20));
(0x1594362f04f5cf, (-21));
(0x1b08dbde6de735, (-22));
(0x1033e8b9f33848, (-22));
(0x128cb0bc6bb3c3, (-23));
(0x143dba598fff43, (-24));
(0x15006a0b470cd7, (-25));
(0x14a96c1db0ad06, (-26));
(0x1335e21d8c69b5, (-27));
(0x10d014fe1bf2a8, (-28));
(0x1b91c2e3c42831, (-30));
(0x150d54e14a9423, (-31));
(0x1db9ee5d896717, (-33));
(0x1339cfcda6ac2c, (-34));
(0x168227f18e2f27, (-36));
(0x1777027097ee30, (-38));
(0x1549ab726d3abf, (-40));
(0x103cd84f2116e7, (-42));
(0x13aedb6538720f, (-45));
(0x110785dd689a28, (-48));
(0x10000000000000, (-52))];
[(0x1fbf4000000000, (-38));
(0x1cee8b772f9646, (-36));
(0x175c400b97141e, (-34));
(0x110d8fa2567be0, (-32));
(0x16d3182fa3ce96, (-31));
(0x1c4a8609ba3f7f, (-30));
(0x105cb9e527384d, (-28));
(0x11c4aa7a9b668d, (-27));
(0x1233a32571be59, (-26));
(0x11a8831d994ebe, (-25));
(0x1046c365633998, (-24));
(0x1c9609787042ea, (-24));
(0x17f85c4e298e4b, (-23));
(0x133af0e573cf91, (-22));
(0x1d91e4788539db, (-22));
(0x15d18e9dabf6aa, (-21));
(0x1ef066dbd70dcb, (-21));
(0x1519ab4fef85f0, (-20));
(0x1bb5767c90fef3, (-20));
(0x11878b06c89913, (-19));
(0x156225954d9a80, (-19));
(0x1929693d5e906f, (-19));
(0x1c928b459a0060, (-19));
(0x1f523b7e72a357, (-19));
(0x10938d1e8c9724, (-18));
(0x10f1c4ca3d70ea, (-18));
(0x10ba6c73e7d1c4, (-18));
(0x1fe642efc1db43, (-19));
(0x1d5f17bfac082d, (-19));
(0x1a1c7aeb7a8d49, (-19));
(0x16680fc3c9d718, (-19));
(0x128d824000e098, (-19));
(0x1da1dfe92a4266, (-20));
(0x16cf9be95b60ba, (-20));
(0x10ea5c5603884b, (-20));
(0x1825ccc830068c, (-21));
(0x10933a3c8c27c2, (-21));
(0x15dbcd7d9387f3, (-22));
(0x1ba8277ebbf36d, (-23));
(0x10c338b53ebaae, (-23));
(0x136f3370399648, (-24));
(0x158244feb5bd1e, (-25));
(0x16ac1e20df624d, (-26));
(0x16b388fbfb0dfe, (-27));
(0x15860bff23a81c, (-28));
(0x134055f2db1d32, (-29));
(0x102b9fc66fb20c, (-30));
(0x195ec6d3cc96c0, (-32));
(0x1275a4e7771aa8, (-33));
(0x18b2d9f9e4c186, (-35));
(0x1e0a1e897e5c38, (-37));
(0x1059f882223e61, (-38));
(0x1f2e553efbc8ca, (-41));
(0x1932b2fde9cfcb, (-43));
(0x1059c4300227a1, (-45));
(0x1eb97e455b9edb, (-49));
(0x10000000000000, (-52))];
[(0x1ba80000000000, (-42));
(0x1de3d31a3b270b, (-40));
(0x1bb9cd45486521, (-38));
(0x16cb296f55aa68, (-36));
(0x10f2878b8b41f3, (-34));
(0x171c7a77e8aa47, (-33));
(0x1d3282f63467f4, (-32));
(0x1137a8d45b592a, (-30));
(0x131223fddab549, (-29));
(0x13ef5056ffee4d, (-28));
(0x13be1614ae2963, (-27));
(0x1295b3a543f879, (-26));
(0x10acc5c711c729, (-25));
(0x1c9609787042ea, (-25));
(0x17746161b293cb, (-24));
(0x1273c1aa1c02c7, (-23));
(0x1be0f68b067f53, (-23));
(0x143f93dde690a7, (-22));
(0x1c4f1985d622a8, (-22));
(0x13107367ac1a31, (-21));
(0x18c18c58b13096, (-21));
(0x1f03d35709a3c9, (-21));
(0x12c124f4a6ac66, (-20));
(0x15e7b57ba4fc63, (-20));
(0x18b7fe22c8b941, (-20));
(0x1af4fee4a790ba, (-20));
(0x1c6aa8c6a7de87, (-20));
(0x1cf583df857317, (-20));
(0x1c882055bf2fda, (-20));
(0x1b2d2ff0a90994, (-20));
(0x1905d62a2b4973, (-20));
(0x16448b387afa6f, (-20));
(0x1325a45f85a4ff, (-20));
(0x1fce03db6f37e0, (-21));
(0x1980e1a1db494b, (-21));
(0x13bbfd71b29e2f, (-21));
(0x1d73c6f68d934b, (-22));
(0x152dcc156e9264, (-22));
(0x1d538ea0345d00, (-23));
(0x13877c76b04cc9, (-23));
(0x18fcf9b01da5e0, (-24));
(0x1eacdc9bdcde8b, (-25));
(0x120925b8a7a758, (-25));
(0x14475c55953749, (-26));
(0x15c147c6365524, (-27));
(0x16368a8e5f4912, (-28));
(0x15860bff23a81c, (-29));
(0x13b8fd56914661, (-30));
(0x1104d421b5b0bd, (-31));
(0x1b84930aaa923c, (-33));
(0x14b5df44549b2c, (-34));
(0x1cc98e349d3122, (-36));
(0x12480ebc25d288, (-37));
(0x14eab635b40f82, (-39));
(0x1521136182662b, (-41));
(0x1247d43d0f737e, (-43));
(0x19c36aa5a9f31d, (-46));
(0x1ad5336963eefb, (-49));
(0x10000000000000, (-52))];
[(0x1e800000000000, (-47));
(0x14b5c5f637ffa3, (-44));
(0x16c4c5205581ad, (-42));
(0x157d994ecaa391, (-40));
(0x11fbad27112273, (-38));
(0x1b3a45cae87034, (-37));
(0x12e8b6cc8c48ea, (-35));
(0x1856d7fb2a29c3, (-34));
(0x1d41e01c583bee, (-33));
(0x108569850e5581, (-31));
(0x119d6f7c302136, (-30));
(0x11cd1401509719, (-29));
(0x111b360b645af8, (-28));
(0x1f598e03b8ee98, (-28));
(0x1b74ba1ce04928, (-27));
(0x170728f0ebcdd1, (-26));
(0x12873c6a065df9, (-25));
(0x1ca50de58befec, (-25));
(0x154ccee599252e, (-24));
(0x1e8172735dcf0f, (-24));
(0x150ea2548221cd, (-23));
(0x1c0b8a0f5e54ce, (-23));
(0x1207b262ca2cad, (-22));
(0x166503658b07e0, (-22));
(0x1ae22143e06399, (-22));
(0x1f33fef3053761, (-22));
(0x1183c397e9bb90, (-21));
(0x1305c5a1f1ca96, (-21));
(0x13fdcf37570ed5, (-21));
(0x1454f2fc329ae0, (-21));
(0x1402f9f10d9870, (-21));
(0x130fa3cc6f7132, (-21));
(0x11917809d8244f, (-21));
(0x1f54cd0abb6bcb, (-22));
(0x1b05ceafdda50a, (-22));
(0x16891baf83c471, (-22));
(0x122a1679f87aa5, (-22));
(0x1c49b372ca90af, (-23));
(0x154427bcb9f30e, (-23));
(0x1ed97e441af6e3, (-24));
(0x15921cec6c5494, (-24));
(0x1d0d919271b902, (-25));
(0x12d2c2befe684d, (-25));
(0x176fc58d43f2d9, (-26));
(0x1bff8e7e14ffc8, (-27));
(0x1004fb16e6d1f6, (-27));
(0x11866be6db6a9c, (-28));
(0x124992d78135d8, (-29));
(0x12275379cdc3cd, (-30));
(0x1116cb8661d8bc, (-31));
(0x1e64fc9a0cc5dc, (-33));
(0x196ac9b9025c2a, (-34));
(0x13df766a3245b0, (-35));
(0x1cd8b42031f89c, (-37));
(0x1340ba1f64f1cd, (-38));
(0x175684f710602c, (-40));
(0x193d4cd883d686, (-42));
(0x17b6bad2875362, (-44));
(0x12860cd9388c36, (-46));
(0x1617398f2aaa47, (-49));
(0x10000000000000, (-52))];
[(0x10000000000000, (-52));
(0x1f7efbeb8d4f11, (-50));
(0x15be291e1ca389, (-47));
(0x184f28211c2176, (-45));
(0x17571f2b6814ae, (-43));
(0x13dfa2025a1b39, (-41));
(0x1ea0919c6d6937, (-40));
(0x15a81e8e81e660, (-38));
(0x1c6466dc8ad70f, (-37));
(0x1162f80ad94fce, (-35));
(0x14037331c796c9, (-34));
(0x15c1c6ffc8d27c, (-33));
(0x166d31f0343e21, (-32));
(0x15fdb4771be578, (-31));
(0x14921b55553a53, (-30));
(0x1266262a89066b, (-29));
(0x1f88c9efad2ab6, (-29));
(0x19efb19c11bd42, (-28));
(0x1481238a9c6007, (-27));
(0x1f33fdd6d268ca, (-27));
(0x16e058ef7a0d0a, (-26));
(0x102d101e4e7a3f, (-25));
(0x16152cc5f5e9b9, (-25));
(0x1d1f2fafe61193, (-25));
(0x128fc47d669f15, (-24));
(0x16e25f5a3b9b44, (-24));
(0x1b4c9da7d6861c, (-24));
(0x1f85c22b7495a8, (-24));
(0x119f21d329d8d0, (-23));
(0x131490f7c1bae2, (-23));
(0x1402f9f10d9870, (-23));
(0x1454f2fc329ae0, (-23));
(0x1402f9f10d9870, (-23));
(0x131490f7c1bae2, (-23));
(0x119f21d329d8d0, (-23));
(0x1f85c22b7495a8, (-24));
(0x1b4c9da7d6861c, (-24));
(0x16e25f5a3b9b44, (-24));
(0x128fc47d669f15, (-24));
(0x1d1f2fafe61193, (-25));
(0x16152cc5f5e9b9, (-25));
(0x102d101e4e7a3f, (-25));
(0x16e058ef7a0d0a, (-26));
(0x1f33fdd6d268ca, (-27));
(0x1481238a9c6007, (-27));
(0x19efb19c11bd42, (-28));
(0x1f88c9efad2ab6, (-29));
(0x1266262a89066b, (-29));
(0x14921b55553a53, (-30));
(0x15fdb4771be578, (-31));
(0x166d31f0343e21, (-32));
(0x15c1c6ffc8d27c, (-33));
(0x14037331c796c9, (-34));
(0x1162f80ad94fce, (-35));
(0x1c6466dc8ad70f, (-37));
(0x15a81e8e81e660, (-38));
(0x1ea0919c6d6937, (-40));
(0x13dfa2025a1b39, (-41));
(0x17571f2b6814ae, (-43));
(0x184f28211c2176, (-45));
(0x15be291e1ca389, (-47));
(0x1f7efbeb8d4f11, (-50));
(0x10000000000000, (-52))]];
   [[(0x10000000000000, (-47));
(0x10000000000000, (-52))];
[(0x15500000000000, (-40));
(0x1ffbffbff7febf, (-44));
(0x1ffbffbff7febf, (-48));
(0x10000000000000, (-52))];
[(0x10fbc000000000, (-34));
(0x15455554aa2a4a, (-37));
(0x1547fe7f0f5c08, (-40));
(0x1febfdbe970a0c, (-44));
(0x1feffbfdfebf1f, (-48));
(0x10000000000000, (-52))];
[(0x19a6ea00000000, (-30));
(0x168b77fb603943, (-32));
(0x10f114a60d81a0, (-34));
(0x152ffff9f56d7e, (-37));
(0x152ffff9f56d7e, (-40));
(0x1fcbf9b5c6c4be, (-44));
(0x1fdbeba917c3f5, (-48));
(0x10000000000000, (-52))];
[(0x16720cc0000000, (-26));
(0x197368768cfc14, (-28));
(0x19903af87680ce, (-30));
(0x16696b1d8b517b, (-32));
(0x10d12a9d22ab9f, (-34));
(0x150575446b5687, (-37));
(0x150816714ef020, (-40));
(0x1f9bf3993c75c1, (-44));
(0x1fbfbf7ebc755e, (-48));
(0x10000000000000, (-52))];
[(0x197b128c000000, (-23));
(0x11bc611c5f1170, (-24));
(0x1658571ca19b35, (-26));
(0x193fd9e1cedc50, (-28));
(0x194c834e9c5a34, (-30));
(0x1625b7c812cb23, (-32));
(0x109c49d60e185a, (-34));
(0x14c5f533c9344c, (-37));
(0x14d05fff229c34, (-40));
(0x1f5beb56127293, (-44));
(0x1f9b61d0237250, (-48));
(0x10000000000000, (-52))];
[(0x142c1959800000, (-20));
(0x10af96ba34cff5, (-21));
(0x19570f6b410a22, (-23));
(0x118f1c3751c294, (-24));
(0x160bbe7eab5197, (-26));
(0x18d9a63e6348cd, (-28));
(0x18dcc20864118a, (-30));
(0x15c129c7578f58, (-32));
(0x1052e9d3660147, (-34));
(0x1471dfc7a73929, (-37));
(0x148906fced6d1a, (-40));
(0x1f0be0d23398ef, (-44));
(0x1f6eb62d27730c, (-48));
(0x10000000000000, (-52))];
[(0x176a0b23500000, (-18));
(0x167ee4067fd919, (-19));
(0x140a031eb36947, (-20));
(0x107bf76add088e, (-21));
(0x18ebfd57a16e50, (-23));
(0x1135a576a8f5fe, (-24));
(0x158dd873a1c87f, (-26));
(0x18429c06220f77, (-28));
(0x18429c06220f77, (-30));
(0x153cf04de6bb0c, (-32));
(0x1feb622558fff1, (-35));
(0x1409b4ff73a41f, (-37));
(0x1432423a015682, (-40));
(0x1eabd3eb882a99, (-44));
(0x1f3998f1b1886c, (-48));
(0x10000000000000, (-52))];
[(0x14a8dca6b00000, (-16));
(0x16abb529e1d593, (-17));
(0x173bc1bb539b13, (-18));
(0x162cb35448cbc3, (-19));
(0x13a4e14531c2d6, (-20));
(0x101643fdb78f42, (-21));
(0x183cb9b5467041, (-23));
(0x10b21ad1583c8d, (-24));
(0x14e13dd730e69c, (-26));
(0x177d659217036f, (-28));
(0x178055cbd70ae9, (-30));
(0x149a9af4743a82, (-32));
(0x1f0ae86f4b6c2b, (-35));
(0x138e14da6bba2a, (-37));
(0x13cc55435fd3f7, (-40));
(0x1e3bc476d73e46, (-44));
(0x1efbdeb14f4ed9, (-48));
(0x10000000000000, (-52))];
[(0x1c7b8409bc0000, (-15));
(0x119f71ac3e7173, (-15));
(0x1479d304448aac, (-16));
(0x164bac3bc4cc88, (-17));
(0x16b2ba75f32155, (-18));
(0x158b4c9e05211b, (-19));
(0x13000969eb67f5, (-20));
(0x1f030669725cd9, (-22));
(0x174deeb1a2358c, (-23));
(0x1007952cd84cb9, (-24));
(0x14097a780e5fe7, (-26));
(0x168d7ba3a53c13, (-28));
(0x1698cadd97d2f4, (-30));
(0x13dc15b9d31576, (-32));
(0x1e0669f0bb32a0, (-35));
(0x12ffbf5791fba2, (-37));
(0x135790bea59707, (-40));
(0x1dbbb23e4a8ef8, (-44));
(0x1eb5537b1434d9, (-48));
(0x10000000000000, (-52))];
[(0x1f54aad7820000, (-14));
(0x15a5127fc579c3, (-14));
(0x1c31af81cd7cd1, (-15));
(0x114a0bd40d12ce, (-15));
(0x13eee3a0d7ffbb, (-16));
(0x158fb6cd210a0d, (-17));
(0x15d45a5080e38b, (-18));
(0x14a07f3e46690a, (-19));
(0x1220dfd8188881, (-20));
(0x1d84318a4ca07e, (-22));
(0x1625ea114d0079, (-23));
(0x1e7421d7c9e0a7, (-25));
(0x130af6abce5707, (-26));
(0x157713bb609216, (-28));
(0x158f62bea29180, (-30));
(0x1303a402eaea25, (-32));
(0x1ce0418fb59218, (-35));
(0x125f9475a0bc57, (-37));
(0x12d452da1c07f8, (-40));
(0x1d2b9cff7b1bb7, (-44));
(0x1e65b9edeba38d, (-48));
(0x10000000000000, (-52))];
[(0x1bf4c7ff898000, (-13));
(0x1565be5f55571d, (-13));
(0x1ef8ffe3dc5657, (-14));
(0x152e475e3f168d, (-14));
(0x1b5821be17f95c, (-15));
(0x10a37d35432258, (-15));
(0x130e72484782fe, (-16));
(0x147fce26b7d915, (-17));
(0x14a94a6185b75f, (-18));
(0x1374a55328ec6c, (-19));
(0x110e9a18b50121, (-20));
(0x1bbb3205e4324a, (-22));
(0x14cc65846b25b7, (-23));
(0x1c9c9f634022ed, (-25));
(0x11eadb4a27f472, (-26));
(0x143f0a7d9d2d91, (-28));
(0x146803a761a07f, (-30));
(0x1213da9aa9dc83, (-32));
(0x1b9b1e79d939b0, (-35));
(0x11ae9432f7e257, (-37));
(0x124307d49fc071, (-40));
(0x1c8b8468e2cf64, (-44));
(0x1e0cca12e97894, (-48));
(0x10000000000000, (-52))];
[(0x14804e660f8000, (-12));
(0x11470259fb98d1, (-12));
(0x1b990ca62eb478, (-13));
(0x14e1bafccdebaa, (-13));
(0x1deb8fa34b52e0, (-14));
(0x14476fcb045498, (-14));
(0x19fa5c83ab2032, (-15));
(0x1f67e516596d72, (-16));
(0x11e2ada530181e, (-16));
(0x13274db6eb3c7e, (-17));
(0x133cfe8fab81ab, (-18));
(0x12123a071d7203, (-19));
(0x1fa3da470c07c8, (-21));
(0x19b52159b9c652, (-22));
(0x134a427232f352, (-23));
(0x1a936865500440, (-25));
(0x10aef0a8b5729e, (-26));
(0x12eaca74b4e1d1, (-28));
(0x1327030b7d1f07, (-30));
(0x110f98b1f1efd9, (-32));
(0x1a3a0063bf0659, (-35));
(0x10edde8d83fed7, (-37));
(0x11a42aa0ca7456, (-40));
(0x1bdb681680d6a1, (-44));
(0x1daa2fefaae1d7, (-48));
(0x10000000000000, (-52))];
[(0x18f82af905c000, (-12));
(0x170e673c59e4ea, (-12));
(0x14353824b30086, (-12));
(0x10cfd956997039, (-12));
(0x1a8c23ac8663f5, (-13));
(0x13e23174622d30, (-13));
(0x1c3c8d6099281c, (-14));
(0x12fd7a54afb883, (-14));
(0x182a918dbcd6a2, (-15));
(0x1d0de7ed334f49, (-16));
(0x1078e574ab3de6, (-16));
(0x119445c6df58d0, (-17));
(0x119d1686e01bc1, (-18));
(0x108555ea3e2f9a, (-19));
(0x1ce95659ecd34e, (-21));
(0x17808668e4761d, (-22));
(0x11a93ba2bf7179, (-23));
(0x186432392534c2, (-25));
(0x1ebaf29eb3a542, (-27));
(0x11802f9101f3a9, (-28));
(0x11d1140e3cdd4d, (-30));
(0x1ff3ffbf009ff9, (-33));
(0x18c033324b0c87, (-35));
(0x101eb3829c1c03, (-37));
(0x10f845a7c03d6b, (-40));
(0x1b1b478d691cd7, (-44));
(0x1d3d89be176072, (-48));
(0x10000000000000, (-52))];
[(0x19761f356ac000, (-12));
(0x19a91769c6abce, (-12));
(0x18926de38b4e29, (-12));
(0x165d5bdbfcf1dd, (-12));
(0x1359ba721be0aa, (-12));
(0x1fd448eae87d51, (-13));
(0x18e0459ac4f933, (-13));
(0x12774e9e76f30b, (-13));
(0x1a05613030b79a, (-14));
(0x11627609a4bcc3, (-14));
(0x16004119a788f2, (-15));
(0x1a552cbca8ae10, (-16));
(0x1dc15ec88a3d2c, (-17));
(0x1fad4f54630fab, (-18));
(0x1fb145bc851956, (-19));
(0x1db63160bcc7c1, (-20));
(0x1a02abbe28cd0e, (-21));
(0x152cc493b7354a, (-22));
(0x1fe71f27b7a292, (-24));
(0x161b488c4486b5, (-25));
(0x1bfa1275986781, (-27));
(0x100567d68eb6d9, (-28));
(0x106b3408ec94d9, (-30));
(0x1dacd63f98d4f0, (-33));
(0x17314a04429c09, (-35));
(0x1e84e61da49db3, (-38));
(0x103ff3b1366a7c, (-40));
(0x1a4b2235d8054f, (-44));
(0x1cc665b0328621, (-48));
(0x10000000000000, (-52))];
[(0x15dffa54b4a000, (-12));
(0x17fd80920da242, (-12));
(0x1902f56ce9b5b1, (-12));
(0x18ce5208743a3d, (-12));
(0x1769f071bdd367, (-12));
(0x150993aa5af416, (-12));
(0x11fe7bf57cf951, (-12));
(0x1d4c6364dca406, (-13));
(0x16b1c6985eeef6, (-13));
(0x10b76b7c716ebf, (-13));
(0x176671fb7a2607, (-14));
(0x1f183b08b0dc7c, (-15));
(0x13967954297611, (-15));
(0x175d079612615e, (-16));
(0x1a55d6c0963637, (-17));
(0x1bfeb43b2b6843, (-18));
(0x1bfeb43b2b6843, (-19));
(0x1a42116e312c4c, (-20));
(0x170554cced532e, (-21));
(0x12c9838b75d913, (-22));
(0x1c674d2ce1445c, (-24));
(0x13c52efcdaebc8, (-25));
(0x1928b53bec03d0, (-27));
(0x1d01a370f24aea, (-29));
(0x1df52a9990f528, (-31));
(0x1b50c9a9b781b5, (-33));
(0x159119906b42da, (-35));
(0x1cb53a5b622c14, (-38));
(0x1ef7c1efbdad51, (-41));
(0x196af75333fc5a, (-44));
(0x1c443f1d4d22ae, (-48));
(0x10000000000000, (-52))];
[(0x1fd16c1e1e0000, (-13));
(0x12f1b91bf8c07d, (-12));
(0x1572448fa17df4, (-12));
(0x171accc4f1e7a0, (-12));
(0x17b474e5f6422b, (-12));
(0x172c761872c731, (-12));
(0x1597c235260987, (-12));
(0x132df290060d31, (-12));
(0x103d231b1d1115, (-12));
(0x1a348d1b7f220e, (-13));
(0x14244b44289ce1, (-13));
(0x1d7a01072d5f98, (-14));
(0x148463d953326e, (-14));
(0x1b244247f52110, (-15));
(0x1109df5cb34820, (-15));
(0x1445deb7719e98, (-16));
(0x16d174eaa5c63a, (-17));
(0x183e8c3950229e, (-18));
(0x1841949c6ceacc, (-19));
(0x16c8e29e7f2223, (-20));
(0x14065a2a79c75d, (-21));
(0x1066167de9e917, (-22));
(0x18e77017202653, (-24));
(0x116e40dc2929bd, (-25));
(0x16544256de17d3, (-27));
(0x19f1b164123f99, (-29));
(0x1b0910a09006ae, (-31));
(0x18e7378c0bc6c8, (-33));
(0x13e3b1c9e824f3, (-35));
(0x1ad1a3b2b8a49a, (-38));
(0x1d5998e6f787f3, (-41));
(0x187ac5f91d24a9, (-44));
(0x1bb67ae8584caa, (-48));
(0x10000000000000, (-52))];
[(0x13a6ff038b0000, (-13));
(0x195efcf404e2cd, (-13));
(0x1f20806bccf7f7, (-13));
(0x122b7015fefc79, (-12));
(0x1434c1a6dcda5e, (-12));
(0x156c0a69ec7ab9, (-12));
(0x15aa025b64b51d, (-12));
(0x14e83ab19cca13, (-12));
(0x13421c951fcfa3, (-12));
(0x10eec193bc7c67, (-12));
(0x1c6afd6f72dde5, (-13));
(0x16c0a7509b1c5e, (-13));
(0x115f5db1039054, (-13));
(0x19489681003d34, (-14));
(0x118514f386954b, (-14));
(0x1718b5fa863f1d, (-15));
(0x1ced5dc7874364, (-16));
(0x112f15b3913a03, (-16));
(0x1354f86a036143, (-17));
(0x148cd9b4f90de7, (-18));
(0x149727dd16d5eb, (-19));
(0x136391b615a089, (-20));
(0x111974e1118838, (-21));
(0x1c21d2b13a30cf, (-23));
(0x157ae46dde6e56, (-24));
(0x1e44a44a154a32, (-26));
(0x1389ba0c0254d9, (-27));
(0x16e7a17aee90fb, (-29));
(0x181cc6fd0b85b9, (-31));
(0x1677ae3f436492, (-33));
(0x122d56b95fa5b3, (-35));
(0x18dda2140eb149, (-38));
(0x1ba712c9679740, (-41));
(0x177a8cfc37711c, (-44));
(0x1b1c62db2564fe, (-48));
(0x10000000000000, (-52))];
[(0x14a7d573320000, (-14));
(0x1ce2de8750990a, (-14));
(0x132dbfdfbbc982, (-13));
(0x1838c94fdb7442, (-13));
(0x1d228387ae29b2, (-13));
(0x10b4d22c5a6ae6, (-12));
(0x124874422247ac, (-12));
(0x131b1ed1057333, (-12));
(0x1312fd2426232e, (-12));
(0x123284835fa784, (-12));
(0x1097a96a24c646, (-12));
(0x1ceb0168010a57, (-13));
(0x18143be2f1b803, (-13));
(0x1326c299b12829, (-13));
(0x1d159724f7b40c, (-14));
(0x1511d2c0d58856, (-14));
(0x1d1950c2da8240, (-15));
(0x1322307d9723a3, (-15));
(0x17edba842ee3ce, (-16));
(0x1c6a4d7cf7ae85, (-17));
(0x1ffb96df71c073, (-18));
(0x11062d5f3ac512, (-18));
(0x111974e1118838, (-19));
(0x10284ec2675b1d, (-20));
(0x1ca08d10924821, (-22));
(0x17adf57ebafc94, (-23));
(0x1233503cd1e830, (-24));
(0x19d8a99cb7b18b, (-26));
(0x10d55d128219c9, (-27));
(0x13efa2b0c27616, (-29));
(0x153ad3ce556ac6, (-31));
(0x1409d2e5229232, (-33));
(0x1072787575a717, (-35));
(0x16dcf56a517099, (-38));
(0x19e20265399c61, (-41));
(0x166a4adc9f726e, (-44));
(0x1a751f9447b724, (-48));
(0x10000000000000, (-52))];
[(0x127b383ea60000, (-15));
(0x1bfe118d270d6a, (-15));
(0x141a2fccf2eb1b, (-14));
(0x1b6f56a18e6d54, (-14));
(0x11d1cac78728aa, (-13));
(0x1610760c4f0b2b, (-13));
(0x1a121e414d48a7, (-13));
(0x1d6c4037f06fcd, (-13));
(0x1fbd301fab11a7, (-13));
(0x105f08d7f02b75, (-12));
(0x10283f57296540, (-12));
(0x1e844b9fb2fcf0, (-13));
(0x1b93f0e565c656, (-13));
(0x17d8acba64696a, (-13));
(0x13b99ade92ef3e, (-13));
(0x1f341f1d05848b, (-14));
(0x179673c987108e, (-14));
(0x1107564cc4ae39, (-14));
(0x1775d484034a3b, (-15));
(0x1ece80fb086945, (-16));
(0x1341109ce541cb, (-16));
(0x16e01fec13b95d, (-17));
(0x19c90baa2a4e3f, (-18));
(0x1b84a319ec38ad, (-19));
(0x1bbc53a9f12aa1, (-20));
(0x1a5354fbb8289d, (-21));
(0x177363500229c2, (-22));
(0x1386d1c5a6cb87, (-23));
(0x1e402343869281, (-25));
(0x15ac0b4995646f, (-26));
(0x1c84b0a5a438a7, (-28));
(0x111521abcb9b9b, (-29));
(0x126d622bb08187, (-31));
(0x11a54567379340, (-33));
(0x1d6f544014c1b2, (-36));
(0x14d39d9889cf36, (-38));
(0x180c6b5eb5ce1e, (-41));
(0x1549fda6c07525, (-44));
(0x19bfb076d236ea, (-48));
(0x10000000000000, (-52))];
[(0x1c20af83900000, (-17));
(0x17154aa0f87230, (-16));
(0x11edf5128c10fb, (-15));
(0x1a6de10d592e7e, (-15));
(0x1285b374da9dec, (-14));
(0x18bac06e5b98d7, (-14));
(0x1f7ec5af9907ad, (-14));
(0x132783273f3d53, (-13));
(0x1645af0ebd5d33, (-13));
(0x18c6b90bcfb38b, (-13));
(0x1a6252bc4bc0b0, (-13));
(0x1ae83a7f198fff, (-13));
(0x1a4958f3e9b067, (-13));
(0x189a7952985c82, (-13));
(0x160ff3eab7d1de, (-13));
(0x12f380e67bc4b9, (-13));
(0x1f2dba7dbce932, (-14));
(0x188d0539e624f6, (-14));
(0x127e9e1eac7285, (-14));
(0x1aa3584e5559b9, (-15));
(0x1252972d6a1eab, (-15));
(0x180c666b9b4840, (-16));
(0x1e1342ab058655, (-17));
(0x11e46405395ec2, (-17));
(0x1437bc133434cd, (-18));
(0x15a6b0daf4c34b, (-19));
(0x15eb9d83520033, (-20));
(0x14ebe0c17bda10, (-21));
(0x12c2b5d99b549b, (-22));
(0x1f7c5aa7daae99, (-24));
(0x189b8cc3d306ea, (-25));
(0x11cf478abf3342, (-26));
(0x17b4eecc846d26, (-28));
(0x1cc5033981d6f3, (-30));
(0x1f7c19872f7508, (-32));
(0x1ea304e9e69a70, (-34));
(0x1a032f8e090b74, (-36));
(0x12c5da761b0764, (-38));
(0x162887c1b71c7c, (-41));
(0x1419a2c52668e0, (-44));
(0x18fae0c15ad389, (-48));
(0x10000000000000, (-52))];
[(0x1228f297900000, (-18));
(0x102b9ab788562c, (-17));
(0x1b301b0b713d91, (-17));
(0x15a550eee87c90, (-16));
(0x105cd75db148d8, (-15));
(0x1789cd41a08aa4, (-15));
(0x10234f7a3e4046, (-14));
(0x151fbe99b08549, (-14));
(0x1a6d8e5c46df21, (-14));
(0x1fa233248774d0, (-14));
(0x1220d59b2bf5eb, (-13));
(0x13e86e4c73a478, (-13));
(0x14f520e60600d1, (-13));
(0x1528175f3ac3cd, (-13));
(0x147c1b9bf6618a, (-13));
(0x13066e13a498fe, (-13));
(0x10f292926039b3, (-13));
(0x1cf4622bbe4c91, (-14));
(0x17b62be779cde7, (-14));
(0x129b4cd6e15400, (-14));
(0x1bf6f23c0ed47a, (-15));
(0x141c01c3a0280d, (-15));
(0x1ba6826cfc3712, (-16));
(0x12278aad2ec9f0, (-16));
(0x16bcce98cd6722, (-17));
(0x1b1ec934b48553, (-18));
(0x1ec0611a7aafc9, (-19));
(0x108a353f9bdc23, (-19));
(0x10d6a8c4fc1a86, (-20));
(0x102d8c25ac2408, (-21));
(0x1d3d66928cdc46, (-23));
(0x18c1b678db0bef, (-24));
(0x138be400feed8b, (-25));
(0x1c9ed69f41f6e4, (-27));
(0x134bc0e01d40a2, (-28));
(0x17c1b232d15309, (-30));
(0x1a6b5046c6f318, (-32));
(0x1a2b870195063e, (-34));
(0x16a9f5fd253c12, (-36));
(0x10b82bc8bf7d6f, (-38));
(0x1438ceeba433b4, (-41));
(0x12d936ba21c4f5, (-44));
(0x18253878ae2e08, (-48));
(0x10000000000000, (-52))];
[(0x13cf9448400000, (-20));
(0x132e8914acb0b2, (-19));
(0x117a381cb7d364, (-18));
(0x1e15d22845b7a1, (-18));
(0x18896489b20cc1, (-17));
(0x1302fe663cbebf, (-16));
(0x1c0cdee9c233bc, (-16));
(0x13bcc9d4b41174, (-15));
(0x1a88aebb4db100, (-15));
(0x110f25ce6b902e, (-14));
(0x1500b801c91077, (-14));
(0x18c7b86932faf9, (-14));
(0x1c0998d6ba8c82, (-14));
(0x1e70251f98df9e, (-14));
(0x1fb7e8af6cfa20, (-14));
(0x1fbc230ed825b4, (-14));
(0x1e7d6b15d403f1, (-14));
(0x1c216131b06f74, (-14));
(0x18eb905f01da4c, (-14));
(0x15314f26b0c135, (-14));
(0x114b904ffc6309, (-14));
(0x1b139eb078b696, (-15));
(0x145141552cc64f, (-15));
(0x1d34cdea705d12, (-16));
(0x1416d0937255eb, (-16));
(0x1a6b2aa5e6141f, (-17));
(0x1095ad958f29e6, (-17));
(0x13d99957ab1f17, (-18));
(0x169be36cd85a5f, (-19));
(0x1874aab47006bc, (-20));
(0x19100ec6c1e161, (-21));
(0x1844523882360d, (-22));
(0x16206da66c5a1f, (-23));
(0x12ecff0c22cbdc, (-24));
(0x1e3b1b344bc82f, (-26));
(0x166b798db77916, (-27));
(0x1eab6f9661ce38, (-29));
(0x132f69a42c3c1d, (-30));
(0x15b81af2ed705f, (-32));
(0x15f1b9777b54a2, (-34));
(0x136d1bfd8da134, (-36));
(0x1d5ea2752726b2, (-39));
(0x123ffe3f1f7a37, (-41));
(0x1188b4b11186c1, (-44));
(0x173ce704fb7b23, (-48));
(0x10000000000000, (-52))];
[(0x1224a5a3800000, (-22));
(0x1329e45611d7d7, (-21));
(0x12f7aadcca4f49, (-20));
(0x11acc6e5ab569a, (-19));
(0x1f21fc67d07a92, (-19));
(0x19fedd72cfab07, (-18));
(0x14a222a75715b1, (-17));
(0x1f3436e47897c5, (-17));
(0x1684ff47814313, (-16));
(0x1f12162daae86b, (-16));
(0x14840c7b956be7, (-15));
(0x19f5cd6204a566, (-15));
(0x1f811402ad98b3, (-15));
(0x1258ceb3bed6af, (-14));
(0x1485768d7af239, (-14));
(0x160d848d188f83, (-14));
(0x16c6aa6a9c8763, (-14));
(0x169ca73430bc2f, (-14));
(0x1594d90200abee, (-14));
(0x13cd27a85031d3, (-14));
(0x1176930d1144fe, (-14));
(0x1d99779cebb14a, (-15));
(0x1818c094644263, (-15));
(0x12d5b14fc865b3, (-15));
(0x1c4089f7ac988c, (-16));
(0x1450ed705908ad, (-16));
(0x1bfd48a034876c, (-17));
(0x127304c88209d6, (-17));
(0x173e71b8dc80e9, (-18));
(0x1bf2058181d1ed, (-19));
(0x1000cb9ec26d5e, (-19));
(0x116ce22e704e09, (-20));
(0x11ff2e41af1007, (-21));
(0x1194e9d24d7a19, (-22));
(0x1031efdfca383e, (-23));
(0x1c0657f125575c, (-25));
(0x16ac546738d623, (-26));
(0x110f15e4c15ffd, (-27));
(0x17b6ab246ff931, (-29));
(0x1e338886967efa, (-31));
(0x116fcd86894563, (-32));
(0x1202321c3b1cb4, (-34));
(0x1055f9fb500fe7, (-36));
(0x19609491d90b8b, (-39));
(0x10412444809ad6, (-41));
(0x102815c9797ae8, (-44));
(0x163fa3f3c02961, (-48));
(0x10000000000000, (-52))];
[(0x1ba58eb0000000, (-25));
(0x100031933c2c64, (-23));
(0x1142a5264f9eaf, (-22));
(0x11747ba26c1d49, (-21));
(0x10a08292e3ed79, (-20));
(0x1df3dad690cc11, (-20));
(0x19977c587be356, (-19));
(0x14cbe45bd9559f, (-18));
(0x101bde78d2ffec, (-17));
(0x17d5197bb77c30, (-17));
(0x10dcd3e58a3e06, (-16));
(0x16dac904185355, (-16));
(0x1db38521309dfe, (-16));
(0x1285d1fbfe7238, (-15));
(0x1630b96c065b37, (-15));
(0x198cdfb2e3d1b6, (-15));
(0x1c4a015f842bf9, (-15));
(0x1e213ee5ecb4a7, (-15));
(0x1ee0b09bb6a862, (-15));
(0x1e73eea967e749, (-15));
(0x1ce7924a982b92, (-15));
(0x1a66df8b1597c5, (-15));
(0x17342d0c012c7f, (-15));
(0x139dd762c7f007, (-15));
(0x1fe47acfafcc02, (-16));
(0x18ea7ff2415761, (-16));
(0x12b23661e65860, (-16));
(0x1aeda860503bbe, (-17));
(0x12985afa4a00ba, (-17));
(0x18995bb602b7c8, (-18));
(0x1f21957b05cb8b, (-19));
(0x12d160e9d1674c, (-19));
(0x15b210ad1342df, (-20));
(0x17ceba2825ffc0, (-21));
(0x18cf178b1c2d7f, (-22));
(0x187c114d546b73, (-23));
(0x16d0786bca357a, (-24));
(0x13fef00909cd18, (-25));
(0x1069890d7785cc, (-26));
(0x191897788f56ad, (-28));
(0x11c1b6dcb959e6, (-29));
(0x17110e5c9784d5, (-31));
(0x1b39f5f8301a82, (-33));
(0x1cd0502d2b6120, (-35));
(0x1adb559ab49832, (-37));
(0x1580ac4ab2df7c, (-39));
(0x1c7f5e4f0ce955, (-42));
(0x1d6e9fc396fea8, (-45));
(0x152a7fa9d2f8e9, (-48));
(0x10000000000000, (-52))];
[(0x114db7e0000000, (-27));
(0x1616f6c2f0b847, (-26));
(0x1a174c5d2a2437, (-25));
(0x1cbb327f4f0b63, (-24));
(0x1dac6a416828ae, (-23));
(0x1ce15dfabfb2ae, (-22));
(0x1a9758860e0bef, (-21));
(0x173c7253611eb4, (-20));
(0x135243648c6945, (-19));
(0x1ea529eb8e4390, (-19));
(0x1738d8e331e143, (-18));
(0x10d76da5b6fcd0, (-17));
(0x17694cb5fbf91d, (-17));
(0x1f39b1c4e29388, (-17));
(0x13ffe15a967f57, (-16));
(0x18a005644d888f, (-16));
(0x1d29ef35efb3d2, (-16));
(0x109eacc0ee3b80, (-15));
(0x123cd8eb0b940b, (-15));
(0x13464073eeba6b, (-15));
(0x139f57be4fb799, (-15));
(0x133ee0a1944670, (-15));
(0x122f762c357bf6, (-15));
(0x108dad0031b386, (-15));
(0x1d06759dc61b58, (-16));
(0x1880837e9621e9, (-16));
(0x13e86ad6d9fb8d, (-16));
(0x1f1f0b0f5c63b3, (-17));
(0x1762fcb7b7d7f6, (-17));
(0x10e22ed3f23d90, (-17));
(0x1765fb84f28469, (-18));
(0x1f179d9e27c275, (-19));
(0x13c8950a1cde8f, (-19));
(0x181376f57ba90b, (-20));
(0x1bf94c7f98dc38, (-21));
(0x1ef8ef671769d4, (-22));
(0x104d7c2d4555ab, (-22));
(0x10468bede45494, (-23));
(0x1eb9703b271773, (-25));
(0x1b51ccddd63d1f, (-26));
(0x16c93b8f24d783, (-27));
(0x11bc0752c6b30a, (-28));
(0x1998f78332d7b0, (-30));
(0x10fec6ddce3958, (-31));
(0x148e347c2e400c, (-33));
(0x165a476f0b91ed, (-35));
(0x1579c9b1b17832, (-37));
(0x11c9e6f4ccfaed, (-39));
(0x187efffac6513c, (-42));
(0x1a6ca6d2cbf570, (-45));
(0x13f9989320b7f7, (-48));
(0x10000000000000, (-52))];
[(0x117ab900000000, (-30));
(0x18d490332c455b, (-29));
(0x1028f0c78221af, (-27));
(0x1378071b637e55, (-26));
(0x15e0627cf2949d, (-25));
(0x17108db6138382, (-24));
(0x16ecffba385945, (-23));
(0x1591471d37db6e, (-22));
(0x1343dbf4f52118, (-21));
(0x106226eb00ed27, (-20));
(0x1a96f5aa631e95, (-20));
(0x14a0effdd59a14, (-19));
(0x1ea6b2a1809a06, (-19));
(0x15d62d81e2ffa5, (-18));
(0x1ddf33aada3c85, (-18));
(0x13a2d94ecd4acd, (-17));
(0x18d4c1904ff384, (-17));
(0x1e3982da4b26d4, (-17));
(0x11b76caf173e7a, (-16));
(0x14034e9287916e, (-16));
(0x15ca9f63d8f771, (-16));
(0x16e0d3e6c71cd3, (-16));
(0x1729a895f0e68b, (-16));
(0x169dc471080db8, (-16));
(0x154beb1bc04cc3, (-16));
(0x13567aba890afc, (-16));
(0x10edc93e3f8025, (-16));
(0x1c9143990b283e, (-17));
(0x1738ee3897cf41, (-17));
(0x122d932ca2e06a, (-17));
(0x1b633dd0e77093, (-18));
(0x13d72ac2256ce2, (-18));
(0x1b9eb3440cb209, (-19));
(0x1273ed82ed102a, (-19));
(0x17a3787df0e7af, (-20));
(0x1cfdcb56b2e616, (-21));
(0x10fe5d1eddf00e, (-21));
(0x1301f5ab775138, (-22));
(0x143dba598fff43, (-23));
(0x147847c75b6708, (-24));
(0x1399fc930f1d0d, (-25));
(0x11b6107878a41d, (-26));
(0x1e13603e4a5a64, (-28));
(0x17e0335880c9c2, (-29));
(0x119d09cd41d9a4, (-30));
(0x17f75296878957, (-32));
(0x1dc8d683c3d18a, (-34));
(0x10b1544be2779b, (-35));
(0x109798e0601b48, (-37));
(0x1c8f7fc9195dc9, (-40));
(0x148a0a0795f197, (-42));
(0x174a0e5767e01d, (-45));
(0x12a79e3a2cd2e5, (-48));
(0x10000000000000, (-52))];
[(0x1bc75800000000, (-34));
(0x163d074f92111d, (-32));
(0x1017e86cf7f018, (-30));
(0x1559b6e31a21f2, (-29));
(0x1a39ffc23d01f2, (-28));
(0x1e0f2e6a55e377, (-27));
(0x102b593605424a, (-25));
(0x106823ea489b03, (-24));
(0x1f86ba81070d66, (-24));
(0x1cc5ddcc877e03, (-23));
(0x19034849623a8d, (-22));
(0x14c23e7fda4809, (-21));
(0x107abf75bc91d4, (-20));
(0x1911b046ad5ec2, (-20));
(0x124ba1cb3c438e, (-19));
(0x19a7400f48dd11, (-19));
(0x114ba3a2df9b8f, (-18));
(0x16725c95fb7251, (-18));
(0x1c0f92ee979548, (-18));
(0x10e7b16b22615d, (-17));
(0x13a4532e203a39, (-17));
(0x16043c15b2be61, (-17));
(0x17d0a01d6abceb, (-17));
(0x18dd53add2e2b6, (-17));
(0x190fa57d547ed2, (-17));
(0x1862a6ccf2c553, (-17));
(0x16e7f3382d7ba5, (-17));
(0x14c4cd2e1dc826, (-17));
(0x122c33885a0f21, (-17));
(0x1eae6d011ca3ed, (-18));
(0x18fa38ce261000, (-18));
(0x1399959e98abbe, (-18));
(0x1da1dfe92a4266, (-19));
(0x159025fe4cfe3c, (-19));
(0x1e2f3ffa3c082f, (-20));
(0x144cdf008bfa08, (-20));
(0x1a3521b9f2cc8e, (-21));
(0x10371bc025a48d, (-21));
(0x1334363c1cc3c8, (-22));
(0x15ba719911c84d, (-23));
(0x1770516e4b426c, (-24));
(0x180c324b8a3475, (-25));
(0x176664acbdf885, (-26));
(0x15860bff23a81c, (-27));
(0x12a3d72ed62887, (-28));
(0x1e40870fea9b98, (-30));
(0x16de5004fa6a9a, (-31));
(0x1ff90e477b0353, (-33));
(0x147aa1a8d1a8e6, (-34));
(0x17bf92b7049046, (-36));
(0x1886f4c3335d91, (-38));
(0x160c5c9e2c95d2, (-40));
(0x10aabc887ef4fb, (-42));
(0x14067ef1f1573d, (-45));
(0x112cf1c3c6a213, (-48));
(0x10000000000000, (-52))];
[(0x10b58000000000, (-37));
(0x1ebd2d0cb48860, (-36));
(0x190e41854b0447, (-34));
(0x1277cd89d0499a, (-32));
(0x18f686ecd43c63, (-31));
(0x1f40fc938fdb83, (-30));
(0x124307642a14a8, (-28));
(0x140a1ef18e97a5, (-27));
(0x14bfb28b67f0c8, (-26));
(0x1459a2037a9899, (-25));
(0x12f7cf1af7afae, (-24));
(0x10d9027e067d3f, (-23));
(0x1c9609787042ea, (-23));
(0x1735816d1d9060, (-22));
(0x12104c4068088f, (-21));
(0x1afe55b3506295, (-21));
(0x1362e5d093bdda, (-20));
(0x1acb44e7ac39da, (-20));
(0x11d53e62f1c654, (-19));
(0x16e13bf2473d07, (-19));
(0x1c50093257f7ad, (-19));
(0x10e7b16b22615d, (-18));
(0x137d7ede2c6dca, (-18));
(0x15b3cb86608cf7, (-18));
(0x17587004683d2f, (-18));
(0x1843ec46f702e0, (-18));
(0x185f6718c495fd, (-18));
(0x17a842f7fe40d6, (-18));
(0x1630850585a487, (-18));
(0x141bf88d011d1a, (-18));
(0x119aacf43941e3, (-18));
(0x1dc3e98b40da16, (-19));
(0x184a9114ef9bef, (-19));
(0x1320a9396476f8, (-19));
(0x1d0c53f4c47190, (-20));
(0x15415d9110c56b, (-20));
(0x1df394423a0e5a, (-21));
(0x144cdf008bfa08, (-21));
(0x1a71561786af3d, (-22));
(0x10873393e653ea, (-22));
(0x13cd001e7ad5f9, (-23));
(0x16b1c87333f334, (-24));
(0x18d617a586785d, (-25));
(0x19e4c4ff9217bc, (-26));
(0x19a64091d9782a, (-27));
(0x18106b6f91e47f, (-28));
(0x154d88358709bf, (-29));
(0x11b6bb2442a1fa, (-30));
(0x1b84930aaa923c, (-32));
(0x13d427f6834d6e, (-33));
(0x1a4773f5b708d2, (-35));
(0x1faa18f40615b3, (-37));
(0x11141a9559a084, (-38));
(0x10233ff39b4dd3, (-40));
(0x19da4718c2fbc5, (-43));
(0x10a152b6da3eb5, (-45));
(0x1efbdeb14f4ed9, (-49));
(0x10000000000000, (-52))];
[(0x1c980000000000, (-42));
(0x1f2d5f3f7cdea2, (-40));
(0x1d2e5524de9847, (-38));
(0x1835e395ae6551, (-36));
(0x122b62572a3fae, (-34));
(0x1903a9ac2f66e7, (-33));
(0x1fe8b4792cbb0b, (-32));
(0x1300d119984e63, (-30));
(0x15430ed5b2c898, (-29));
(0x16746cc576a522, (-28));
(0x167907769feeec, (-27));
(0x1562038e3d71b6, (-26));
(0x13658f0451ec07, (-25));
(0x10d032dc58fe8d, (-24));
(0x1be8764620f145, (-24));
(0x1636f0af41c759, (-23));
(0x10fbf7613080cf, (-22));
(0x18f9fbff925059, (-22));
(0x11ae5d5335305e, (-21));
(0x181fbf48c3bf8c, (-21));
(0x1fbeafca5511c2, (-21));
(0x1428818464ef04, (-20));
(0x18b9134573a8f2, (-20));
(0x1d4ba0925d1eb1, (-20));
(0x10c6b56c3e482c, (-19));
(0x1293bffba37435, (-19));
(0x13e4edf1795dde, (-19));
(0x149b51356af97f, (-19));
(0x14a5a69eba53f4, (-19));
(0x1402f9f10d9870, (-19));
(0x12c2ca51fcbee9, (-19));
(0x1102a7d150c813, (-19));
(0x1dd39334384513, (-20));
(0x19470429c7622f, (-20));
(0x14b343a35e5ceb, (-20));
(0x105f8851cf9ed9, (-20));
(0x1900d1e0554d8a, (-21));
(0x126ac6d77e94a7, (-21));
(0x1a276cf69a95f2, (-22));
(0x11e2b1b74de66a, (-22));
(0x17891e856dcd9c, (-23));
(0x1dc32133e4bae0, (-24));
(0x120f2273833aa3, (-24));
(0x14ffaade8fbfd6, (-25));
(0x175a27ccc2cc1d, (-26));
(0x18c8c2142018d0, (-27));
(0x190a8237d63f34, (-28));
(0x1803d5a3d3243a, (-29));
(0x15c8ca922a1e2a, (-30));
(0x129cdc9e7c078a, (-31));
(0x1dcde29dd70291, (-33));
(0x1637f4c01a5110, (-34));
(0x1e98a937b335c1, (-36));
(0x1340ba1f64f1cd, (-37));
(0x15d4a6b232ad96, (-39));
(0x15dba66cb5b679, (-41));
(0x12bf55524c80a2, (-43));
(0x1a32458d92b67c, (-46));
(0x1b0e35269b38f4, (-49));
(0x10000000000000, (-52))];
[(0x1f000000000000, (-47));
(0x153a235527d8ae, (-44));
(0x17898bada68f01, (-42));
(0x1668f8fe85eed9, (-40));
(0x12eb483cc753ed, (-38));
(0x1ce75fe16a717e, (-37));
(0x14420c7d90ee72, (-35));
(0x1a51fd226e066b, (-34));
(0x1ff0f3b81c31f1, (-33));
(0x123668ec602c93, (-31));
(0x139c8789efa2da, (-30));
(0x14050aada5cfe0, (-29));
(0x137000d0265db4, (-28));
(0x11ffd7eaaa9309, (-27));
(0x1fde37affcc937, (-27));
(0x1b06080e79416e, (-26));
(0x15fd130422f0b2, (-25));
(0x113189668a1914, (-24));
(0x19df4aeee23640, (-24));
(0x12c0546b25b74d, (-23));
(0x1a3549f0081334, (-23));
(0x11acbf65ee42ad, (-22));
(0x1705d79dffe1dd, (-22));
(0x1cfab1d74fbdf3, (-22));
(0x11a22ddd87e3ed, (-21));
(0x14c1c2e6103c47, (-21));
(0x17a451a097703e, (-21));
(0x1a100dece2fd2d, (-21));
(0x1bd06af1ce0689, (-21));
(0x1cbd508b1909dd, (-21));
(0x1cc0e8e1be44c3, (-21));
(0x1bdae19ab0529d, (-21));
(0x1a2077c4454ec9, (-21));
(0x17b94c289923b1, (-21));
(0x14d9a4bd826424, (-21));
(0x11bb3d3871942e, (-21));
(0x1d2bfd27a81d5e, (-22));
(0x1733b59cc046da, (-22));
(0x11d559bf938896, (-22));
(0x1a79eb28e643be, (-23));
(0x12f7d3a5958c3d, (-23));
(0x1a3549f0081334, (-24));
(0x11716c4bdba48f, (-24));
(0x16581dce4f004f, (-25));
(0x1b827570dcf4ee, (-26));
(0x10409ec04658dd, (-26));
(0x1266262a89066b, (-27));
(0x13eae2cdfdfdc2, (-28));
(0x14921b55553a53, (-29));
(0x14370b15ea75ee, (-30));
(0x12d791945fd2b5, (-31));
(0x109823eade761b, (-32));
(0x1b7d998b6f5b70, (-34));
(0x154b4d2568214b, (-35));
(0x1ea0919c6d6937, (-37));
(0x14420c7d90ee72, (-38));
(0x18570d5f820ebb, (-40));
(0x1a1863a347e685, (-42));
(0x184f28211c2176, (-44));
(0x12d46fbe1ed8ce, (-46));
(0x1645640568c1c3, (-49));
(0x10000000000000, (-52))];
[(0x10000000000000, (-52));
(0x1fbfbf7ebc755e, (-50));
(0x1618ac589f2873, (-47));
(0x18e8d68ceea80e, (-45));
(0x181e58d0573e2a, (-43));
(0x14b6650173bb80, (-41));
(0x10197422e3fea7, (-39));
(0x16f86d35520ee9, (-38));
(0x1e6312bc5965ab, (-37));
(0x12c7988ce23d9c, (-35));
(0x15d1ebf1ada3d8, (-34));
(0x17f2a616dde33a, (-33));
(0x18ecfb47f42df6, (-32));
(0x18af53ffffdf97, (-31));
(0x1753342cfad6d8, (-30));
(0x15142757a19291, (-29));
(0x124134c794ffdc, (-28));
(0x1e5a543c02cef5, (-28));
(0x1842dd6547715c, (-27));
(0x12ab28de7cf618, (-26));
(0x1bb0a3a988731c, (-26));
(0x13cfbee14db6b7, (-25));
(0x1b5f9fa5d74567, (-25));
(0x1246179e76cd89, (-24));
(0x17976421c990cf, (-24));
(0x1d7732764028d1, (-24));
(0x11cfa3ec04ab93, (-23));
(0x14d9a4bd826424, (-23));
(0x17a451a097703e, (-23));
(0x19f901ebfa02b7, (-23));
(0x1ba668b59d03e5, (-23));
(0x1c872d1a02a976, (-23));
(0x1c872d1a02a976, (-23));
(0x1ba668b59d03e5, (-23));
(0x19f901ebfa02b7, (-23));
(0x17a451a097703e, (-23));
(0x14d9a4bd826424, (-23));
(0x11cfa3ec04ab93, (-23));
(0x1d7732764028d1, (-24));
(0x17976421c990cf, (-24));
(0x1246179e76cd89, (-24));
(0x1b5f9fa5d74567, (-25));
(0x13cfbee14db6b7, (-25));
(0x1bb0a3a988731c, (-26));
(0x12ab28de7cf618, (-26));
(0x1842dd6547715c, (-27));
(0x1e5a543c02cef5, (-28));
(0x124134c794ffdc, (-28));
(0x15142757a19291, (-29));
(0x1753342cfad6d8, (-30));
(0x18af53ffffdf97, (-31));
(0x18ecfb47f42df6, (-32));
(0x17f2a616dde33a, (-33));
(0x15d1ebf1ada3d8, (-34));
(0x12c7988ce23d9c, (-35));
(0x1e6312bc5965ab, (-37));
(0x16f86d35520ee9, (-38));
(0x10197422e3fea7, (-39));
(0x14b6650173bb80, (-41));
(0x181e58d0573e2a, (-43));
(0x18e8d68ceea80e, (-45));
(0x1618ac589f2873, (-47));
(0x1fbfbf7ebc755e, (-50));
(0x10000000000000, (-52))]];
   [[(0x10000000000000, (-52))];
[(0x10800000000000, (-43));
(0x103f81f636b80b, (-47));
(0x10000000000000, (-52))];
[(0x16a50000000000, (-37));
(0x1651e789ab72fe, (-40));
(0x107bff83c2d813, (-43));
(0x103b911e4e2516, (-47));
(0x10000000000000, (-52))];
[(0x18c47800000000, (-32));
(0x12581b529080f3, (-34));
(0x1699fd52bcad90, (-37));
(0x1641a60d20bc36, (-40));
(0x106ffe0da07e3a, (-43));
(0x1033ac8e57cb7e, (-47));
(0x10000000000000, (-52))];
[(0x1cdbc740000000, (-28));
(0x1c94ac05f19566, (-30));
(0x18b253c1800f52, (-32));
(0x1241c6add20e29, (-34));
(0x1679054ae379e8, (-37));
(0x16212ee234ea61, (-40));
(0x105bfb994de524, (-43));
(0x1027ce7b7ea376, (-47));
(0x10000000000000, (-52))];
[(0x14c31898000000, (-24));
(0x19cd47ae31e9b5, (-26));
(0x1cbf6b109a2939, (-28));
(0x1c63baffdf6f6a, (-30));
(0x187c1be5e6a177, (-32));
(0x12154e26a93d86, (-34));
(0x164247e8460727, (-37));
(0x15f099b380e912, (-40));
(0x103ff81f800f63, (-43));
(0x1017ee1acdc962, (-47));
(0x10000000000000, (-52))];
[(0x142c1959800000, (-21));
(0x1e3a9851c3ef3f, (-23));
(0x14a961c18568f5, (-24));
(0x199417216e91e6, (-26));
(0x1c6ad30bba4505, (-28));
(0x1c028b9cc94eb7, (-30));
(0x18226e8ce61d44, (-32));
(0x11d31306aea674, (-34));
(0x15f6152a94cf32, (-37));
(0x15b00a24e0daf4, (-40));
(0x101bf395b531cf, (-43));
(0x1003ff801ff603, (-47));
(0x10000000000000, (-52))];
[(0x1c18da2a600000, (-19));
(0x18b4b42bbddca3, (-20));
(0x140dcf8fecb57c, (-21));
(0x1de7fccf8e8460, (-23));
(0x145cd4bfc0a210, (-24));
(0x1922dbbced1c6d, (-26));
(0x1bdf7270c2bb85, (-28));
(0x1b7280a4aec393, (-30));
(0x17a65195fa8f98, (-32));
(0x117ba6a83bfe0b, (-34));
(0x1594dd115b9916, (-37));
(0x155fafff6a48aa, (-40));
(0x1fdfdbdbc75e8a, (-44));
(0x1fd7e6e08ed5eb, (-48));
(0x10000000000000, (-52))];
[(0x1d448dec240000, (-17));
(0x1d9dee945b2742, (-18));
(0x1be7065aee90b5, (-19));
(0x18640d4f2ca50d, (-20));
(0x13b3d31cf4b88c, (-21));
(0x1d44eaf57e20ab, (-23));
(0x13df33c390ec60, (-24));
(0x187bd9f0092934, (-26));
(0x1b1fac276f5059, (-28));
(0x1ab5a7ee95a150, (-30));
(0x1709302065948d, (-32));
(0x110fc9c3a9cd49, (-34));
(0x151f2f9bfc264f, (-37));
(0x14ffc76d6aa7df, (-40));
(0x1f77ce2c148c15, (-44));
(0x1f9f6e4990f227, (-48));
(0x10000000000000, (-52))];
[(0x17876d132c0000, (-15));
(0x1b00b6915c11e0, (-16));
(0x1d085f4bc95e1b, (-17));
(0x1d2cee5d832f16, (-18));
(0x1b534b7f2ef6d7, (-19));
(0x17c554a67c33ed, (-20));
(0x1320be1ea74ceb, (-21));
(0x1c559abc6fae94, (-23));
(0x13335ece0bb8d0, (-24));
(0x17a26712a47474, (-26));
(0x1a2ec718f8b633, (-28));
(0x19ceb2d376b93d, (-30));
(0x164cd70b2847cc, (-32));
(0x10906b7f171465, (-34));
(0x1495bcc9a6adf2, (-37));
(0x14909947b077b5, (-40));
(0x1effbdef357922, (-44));
(0x1f5e67fdcbdf43, (-48));
(0x10000000000000, (-52))];
[(0x1de817709f0000, (-14));
(0x133e9d39e27ff1, (-14));
(0x1750145918df89, (-15));
(0x1a8a2e488545f0, (-16));
(0x1c565354802b5d, (-17));
(0x1c4f4066a7f7bf, (-18));
(0x1a62d5a2c5ad47, (-19));
(0x16dd97b720c8f9, (-20));
(0x1258ca61fa08c5, (-21));
(0x1b2032d0692d78, (-23));
(0x125d3e9e578940, (-24));
(0x169ad50302508e, (-26));
(0x1910de18130d70, (-28));
(0x18c0ec31138b86, (-30));
(0x15737074fadbc0, (-32));
(0x1ffd507e1e9699, (-35));
(0x13f954994f88d6, (-37));
(0x14127b75cc1f47, (-40));
(0x1e77aaed6b4d0f, (-44));
(0x1f149e4df76f81, (-48));
(0x10000000000000, (-52))];
[(0x1e9e6124108000, (-13));
(0x15e6a63cbf13da, (-13));
(0x1d986be2b2631e, (-14));
(0x12de8cc45491c0, (-14));
(0x16acb4868f0f9b, (-15));
(0x19a26a3c3f3dd4, (-16));
(0x1b35c44868df30, (-17));
(0x1b0d4e94316d16, (-18));
(0x191dfc6faead3b, (-19));
(0x15b4249b6a1252, (-20));
(0x1161a7fce345ae, (-21));
(0x19ac93ea6c1cd2, (-23));
(0x1161a7fce345ae, (-24));
(0x156a579cc019d9, (-26));
(0x17cacb8fc72cb1, (-28));
(0x17902c0e4e42fa, (-30));
(0x147f7e3c414bce, (-32));
(0x1eb7906bc62795, (-35));
(0x134ae709a12b69, (-37));
(0x1385d163752d22, (-40));
(0x1ddf94e2545231, (-44));
(0x1ec1d2284fc275, (-48));
(0x10000000000000, (-52))];
[(0x19a061ff936000, (-12));
(0x143bb2af17349a, (-12));
(0x1e42b308995fca, (-13));
(0x156b6947d34024, (-13));
(0x1cadccd86cbfea, (-14));
(0x12235cb507339e, (-14));
(0x15a51d7a14ae9b, (-15));
(0x1853ad0083f34b, (-16));
(0x19b278d9021cf9, (-17));
(0x197327b920bd6c, (-18));
(0x178fdc925afac6, (-19));
(0x1452397c6e6103, (-20));
(0x104245b227bbba, (-21));
(0x180415648272a7, (-23));
(0x1046382acbb670, (-24));
(0x1416e4941403cb, (-26));
(0x166211412681fe, (-28));
(0x1640c8f74e2644, (-30));
(0x1373d37efc62d8, (-32));
(0x1d527b5deffaf7, (-35));
(0x128b8418e9246e, (-37));
(0x12eb0c8ddc034c, (-40));
(0x1d377b7a4ef426, (-44));
(0x1e65b9edeba38d, (-48));
(0x10000000000000, (-52))];
[(0x11bdcdb0efe000, (-11));
(0x1ec07599174000, (-12));
(0x194a9f5add01c1, (-12));
(0x13bc31fa7a499a, (-12));
(0x1d356104da4031, (-13));
(0x147c249a96d239, (-13));
(0x1b350b0f8acd6d, (-14));
(0x11169088ccf5a3, (-14));
(0x1445bad5c34abe, (-15));
(0x16ac88bf7a55cc, (-16));
(0x17dbf53d8eb195, (-17));
(0x178fdc925afac6, (-18));
(0x15c5cfe0bf67f1, (-19));
(0x12c29f30067626, (-20));
(0x1e051abda30f50, (-22));
(0x16313551a16d25, (-23));
(0x1e2256de1e05b1, (-25));
(0x12a70e60f56c54, (-26));
(0x14dcbc67d943e0, (-28));
(0x14d7872ca0b30c, (-30));
(0x12538d1ab5fcda, (-32));
(0x1bd146255db6a6, (-35));
(0x11bc5bc4fe4317, (-37));
(0x1242ad2c715898, (-40));
(0x1c7f5e4f0ce955, (-44));
(0x1e000000000000, (-48));
(0x10000000000000, (-52))];
[(0x1482b595b27000, (-11));
(0x136d055ea08482, (-11));
(0x117bb8085d440e, (-11));
(0x1de87f6ba76a7e, (-12));
(0x184f5af789addf, (-12));
(0x12c598a1f36803, (-12));
(0x1b870da8edfdce, (-13));
(0x1326a485fd53ab, (-13));
(0x19425ebaf1cd79, (-14));
(0x1f8b14a09fbb74, (-15));
(0x129ebafa48586a, (-15));
(0x14bef529481fbe, (-16));
(0x15c4971742164f, (-17));
(0x1574b61d5fbaef, (-18));
(0x13cecb95d32fd6, (-19));
(0x111133c5e93d6c, (-20));
(0x1b562e65b857b8, (-22));
(0x143f3ed7f5e93a, (-23));
(0x1b925dd2f87b2d, (-25));
(0x1121db04b74216, (-26));
(0x134146ad86879a, (-28));
(0x135985c5b14ed9, (-30));
(0x1122092c66f4b5, (-32));
(0x1a37713d7feac2, (-35));
(0x10debe0b1d277d, (-37));
(0x118d42f9a1d35c, (-40));
(0x1bb73ce30dc2e1, (-44));
(0x1d9040f230cfdf, (-48));
(0x10000000000000, (-52))];
[(0x13f1dcb6a4b000, (-11));
(0x14924b7264f1fc, (-11));
(0x142deacdc8a046, (-11));
(0x12d585d121a6a8, (-11));
(0x10baa4eb36727f, (-11));
(0x1c48852e532160, (-12));
(0x16bfff7cff6ca0, (-12));
(0x1167e504b1dfa5, (-12));
(0x1951c1c6e3452a, (-13));
(0x117e209d3a4f42, (-13));
(0x16efcf91c8c116, (-14));
(0x1c8121a5486abb, (-15));
(0x10c2f86cfb5f1a, (-15));
(0x129f333258dda3, (-16));
(0x13808b81317cc2, (-17));
(0x13345182e6cddb, (-18));
(0x11baad5e2cfd0e, (-19));
(0x1e94d533e6c552, (-21));
(0x1889adbe058945, (-22));
(0x1239e9edfeb944, (-23));
(0x18ea5df8365756, (-25));
(0x1f1d2f232675b5, (-27));
(0x11967464159e99, (-28));
(0x11cc29ec6fd7d1, (-30));
(0x1fc5bb20a904b4, (-33));
(0x1888c39c112385, (-35));
(0x1fe835cf6e5490, (-38));
(0x10cb6e213f29e7, (-40));
(0x1adf169b98430c, (-44));
(0x1d160948667c88, (-48));
(0x10000000000000, (-52))];
[(0x1067fbbf877800, (-11));
(0x1260ec2770cd5c, (-11));
(0x139683fc7ce253, (-11));
(0x13e08e3a9f3a50, (-11));
(0x1336efe355a74e, (-11));
(0x11b2fdfec6d521, (-11));
(0x1f13062f9c5200, (-12));
(0x19feaa981061d9, (-12));
(0x14b7934d52bcb6, (-12));
(0x1f7242edcbc277, (-13));
(0x16b6962b977744, (-13));
(0x1f3342a4a2dd5f, (-14));
(0x145b31b5f7d8cc, (-14));
(0x19334be3885466, (-15));
(0x1d8d78767f7dc6, (-16));
(0x106293a5d158ae, (-16));
(0x1124b12701c7f7, (-17));
(0x10e1af65063c56, (-18));
(0x1f3301cd6dd21c, (-20));
(0x1af59018ccb3c6, (-21));
(0x15b18c58ae97fa, (-22));
(0x102cf7e6277b18, (-23));
(0x1638477c2d172d, (-25));
(0x1be952ec959dc8, (-27));
(0x1fc6611d8f9c82, (-29));
(0x1035085de5af25, (-30));
(0x1d339ac3c395e2, (-33));
(0x16c944d36604b9, (-35));
(0x1dfc04ac5ae222, (-38));
(0x1ffbc0b7d868ad, (-41));
(0x19f6eab899a771, (-44));
(0x1c90d29d2d43cd, (-48));
(0x10000000000000, (-52))];
[(0x16ed7ed9778000, (-12));
(0x1bd73e9a5a4000, (-12));
(0x1014cea282b3b1, (-11));
(0x11b13d682ebbe8, (-11));
(0x128d518c0c144b, (-11));
(0x128d518c0c144b, (-11));
(0x11b2fdfec6d521, (-11));
(0x101cd3ccd5cbb4, (-11));
(0x1bfe9054fdf338, (-12));
(0x1734012366e7d6, (-12));
(0x1257fc600c3170, (-12));
(0x1ba6a08e1c9131, (-13));
(0x13dacd517ee9f6, (-13));
(0x1b244247f52110, (-14));
(0x11a3e8527907e1, (-14));
(0x15c68ea8280bd5, (-15));
(0x197ce5ac9afbb9, (-16));
(0x1c3c6f1311fe0f, (-17));
(0x1d8af2f0cae997, (-18));
(0x1d1e8a37334ca2, (-19));
(0x1af59018ccb3c6, (-20));
(0x175cbe86e36898, (-21));
(0x12df21372e0f9c, (-22));
(0x1c47a0cc967a96, (-24));
(0x1389ba0c0254d9, (-25));
(0x18b6bd4fe179ba, (-27));
(0x1c5ccea451f281, (-29));
(0x1d339ac3c395e2, (-31));
(0x1a957af6a1b02d, (-33));
(0x14fd3678a604b2, (-35));
(0x1bfc48a0dd5b98, (-38));
(0x1e4abc820898af, (-41));
(0x18feb849879b53, (-44));
(0x1c000000000000, (-48));
(0x10000000000000, (-52))];
[(0x1b4b7ea15d8000, (-13));
(0x11f0a66ecc0fe2, (-12));
(0x166cd00a7f13db, (-12));
(0x1ab0ef0ccc5f1e, (-12));
(0x1e486579fe4f74, (-12));
(0x1063a8d5ee7955, (-11));
(0x10ef83cbfef4d8, (-11));
(0x10b6d6c8900d50, (-11));
(0x1f84ca0a7b22f5, (-12));
(0x1c650d95366773, (-12));
(0x1870ae7cb50158, (-12));
(0x141831db1592b6, (-12));
(0x1f8d5758ed9cf3, (-13));
(0x17a419395570b3, (-13));
(0x10e4ae012a892a, (-13));
(0x170133732c0673, (-14));
(0x1dd146e239be38, (-15));
(0x125e698dc209ef, (-15));
(0x157adb20758884, (-16));
(0x17cbc2ec012fc7, (-17));
(0x18ebb7dd5b0d56, (-18));
(0x189c3c72339a31, (-19));
(0x16d99f54715900, (-20));
(0x13e0b09c726a3a, (-21));
(0x1022875e3967ea, (-22));
(0x185244fbbc6158, (-24));
(0x10eb9f57380108, (-25));
(0x15937bb1626049, (-27));
(0x18fdbee5aa13a3, (-29));
(0x1a0046e5db0757, (-31));
(0x17f34fead77b35, (-33));
(0x13290cbbdf95c4, (-35));
(0x19eca19cd11dcc, (-38));
(0x1c8581b6afc7e8, (-41));
(0x17f67e1debc514, (-44));
(0x1b62d946c44ef2, (-48));
(0x10000000000000, (-52))];
[(0x1bb8d45df90000, (-14));
(0x13b640520f4785, (-13));
(0x1aa1bb8a8a070f, (-13));
(0x111ed3fda1dff7, (-12));
(0x14fa09dcb56466, (-12));
(0x188546552c20fc, (-12));
(0x1b5ef49cb42781, (-12));
(0x1d3215fc7be5df, (-12));
(0x1dc642b5d63468, (-12));
(0x1d0aa1cd1199d9, (-12));
(0x1b18f4a0bbf028, (-12));
(0x182ffa55b31cb9, (-12));
(0x14a6cdaae00bec, (-12));
(0x10dca829ff4de7, (-12));
(0x1a5233073a1f73, (-13));
(0x13a04bc735200c, (-13));
(0x1bf0e920b9ecbb, (-14));
(0x12f85c0a7cac09, (-14));
(0x188a9b1b35e50d, (-15));
(0x1e355a6ee9e916, (-16));
(0x11a99289e2e8ba, (-16));
(0x1395daa1c4c457, (-17));
(0x148cd9b4f90de7, (-18));
(0x145a3727eb00c1, (-19));
(0x12f8349df34518, (-20));
(0x1095094c68ece4, (-21));
(0x1b141d8361081c, (-23));
(0x148d1b082da836, (-24));
(0x1cd396a8453170, (-26));
(0x128caff7129e4d, (-27));
(0x15b627361d4411, (-29));
(0x16db31af172276, (-31));
(0x15551d4e1597a2, (-33));
(0x1151661bd05a2c, (-35));
(0x17d0ef8a696994, (-38));
(0x1aadef221667a5, (-41));
(0x16de3aaf80eb1f, (-44));
(0x1ab884ef702283, (-48));
(0x10000000000000, (-52))];
[(0x180695eb0b0000, (-15));
(0x127b383ea60000, (-14));
(0x1af9657dc41108, (-14));
(0x12b6d6d00df71f, (-13));
(0x18bac06e5b98d7, (-13));
(0x1f2a57cb912774, (-13));
(0x12c044d7b85576, (-12));
(0x1590a1b1c43e28, (-12));
(0x17b8b1dd24aac5, (-12));
(0x18f8dd1ca323b2, (-12));
(0x192b59070f4111, (-12));
(0x184b56e861e024, (-12));
(0x1675b198b89aac, (-12));
(0x13e2fef065f884, (-12));
(0x10dca829ff4de7, (-12));
(0x1b5fba3079e345, (-13));
(0x1542fcc2798d63, (-13));
(0x1f95e624feb290, (-14));
(0x166b5580c1e296, (-14));
(0x1e6276e4bca1af, (-15));
(0x13a2adfb4b3de8, (-15));
(0x182b6a35f32385, (-16));
(0x1c4a3bcd38a9d3, (-17));
(0x1f6e01ab5ec9f8, (-18));
(0x10894cd06ef09c, (-18));
(0x1070b6227d8026, (-19));
(0x1ecba38de76ecd, (-21));
(0x1b141d8361081c, (-22));
(0x164387f386cb8f, (-23));
(0x1108aa7ab485f0, (-24));
(0x181d4b27983431, (-26));
(0x1f5c71870dd419, (-28));
(0x1292185e42cc00, (-29));
(0x13cf08ed140ccd, (-31));
(0x12c2d948cc61b0, (-33));
(0x1ef60433ef6fa8, (-36));
(0x15ad524bb23436, (-38));
(0x18c614e8cba962, (-41));
(0x15b5ec028b1c0b, (-44));
(0x1a000000000000, (-48));
(0x10000000000000, (-52))];
[(0x11bf4a2b640000, (-16));
(0x1d8e6ebbca9ac7, (-16));
(0x174dd74f24ab44, (-15));
(0x117151de793cb7, (-14));
(0x18d6f7728e9476, (-14));
(0x10db0356e0c02b, (-13));
(0x15d50f501e707f, (-13));
(0x1b059c2c31676e, (-13));
(0x1ffdb52ff33980, (-13));
(0x1220d59b2bf5eb, (-12));
(0x13ae2f1bbe595b, (-12));
(0x1479c69677d747, (-12));
(0x146c31452cbc16, (-12));
(0x13880f8699348a, (-12));
(0x11e95bb49d9da9, (-12));
(0x1f7fd906305c52, (-13));
(0x1a8d3ca24517cb, (-13));
(0x1572ad3d11396e, (-13));
(0x10984df0b90675, (-13));
(0x189510a6dcd116, (-14));
(0x116a4e03e1047e, (-14));
(0x179492bad9b5d1, (-15));
(0x1e7a0886c9c7dd, (-16));
(0x12c65f8a9d7a49, (-16));
(0x160475c956a30a, (-17));
(0x1887fc76f5772b, (-18));
(0x19e9baa1fab4b2, (-19));
(0x19e342a0390516, (-20));
(0x18639e21a9d464, (-21));
(0x159855b3f220cc, (-22));
(0x11e628a53071e4, (-23));
(0x1ba491ec0b42b2, (-25));
(0x13c5bdb2c0507b, (-26));
(0x1a04c31c6a835a, (-28));
(0x1f38ea22196a6d, (-30));
(0x10e5d4745d052e, (-31));
(0x10444d7c2ca2d3, (-33));
(0x1b556d995b3669, (-36));
(0x138629b6aeddb9, (-38));
(0x16d03a366aae34, (-41));
(0x147d8f76efb220, (-44));
(0x193813088978c4, (-48));
(0x10000000000000, (-52))];
[(0x164986d1480000, (-18));
(0x141e368a934ad0, (-17));
(0x1126b6a647e353, (-16));
(0x1bb4b0e5390cc2, (-16));
(0x154176e510b055, (-15));
(0x1f0bc47b6fb2be, (-15));
(0x159f0d68401357, (-14));
(0x1cc317a8dee975, (-14));
(0x124b3e801e261f, (-13));
(0x1646df18203d1f, (-13));
(0x19fd599c259ca4, (-13));
(0x1d11e417e9deaa, (-13));
(0x1f309297f7a02a, (-13));
(0x100e63ff4a0e1a, (-12));
(0x1fbc230ed825b4, (-13));
(0x1e1b3ba7ec174e, (-13));
(0x1b6b0962790876, (-13));
(0x17f7ab0af4a236, (-13));
(0x141ae674252798, (-13));
(0x102d9b4bc7643a, (-13));
(0x18f6a3448c09c4, (-14));
(0x1274464f72bad0, (-14));
(0x1a1f7505d186be, (-15));
(0x11af6e0c23485c, (-15));
(0x16e112f6ee213d, (-16));
(0x1c3e211413b450, (-17));
(0x109b921c9d5d0c, (-17));
(0x12933c4c444dc9, (-18));
(0x13b782cde9cbea, (-19));
(0x13d056c8a046d3, (-20));
(0x12cc0b15116908, (-21));
(0x10c743f3fd5ed8, (-22));
(0x1c124a72d5fb16, (-24));
(0x15e783e6148573, (-25));
(0x1fb4d7d7553875, (-27));
(0x15233a8f8e25a3, (-28));
(0x19bd59fee74f3f, (-30));
(0x1c517d86326ca3, (-32));
(0x1bc1ebfe49a1d1, (-34));
(0x17caca47acd3d8, (-36));
(0x1160158f2459e6, (-38));
(0x14cee44b794215, (-41));
(0x13352180beb327, (-44));
(0x185f42f1521411, (-48));
(0x10000000000000, (-52))];
[(0x17afd840200000, (-20));
(0x173af42b2e8fd6, (-19));
(0x15722543715401, (-18));
(0x12b55d91d8d895, (-17));
(0x1ef0dfac49176d, (-17));
(0x18510e64e98873, (-16));
(0x1233caaff10333, (-15));
(0x1a00d8690f2924, (-15));
(0x11c034b4ea69ab, (-14));
(0x1730dac90fe541, (-14));
(0x1d063b9a9edd06, (-14));
(0x116a23c32c1e37, (-13));
(0x140d2bc67b38ca, (-13));
(0x162a6380b4bdbf, (-13));
(0x1788d345f3eaaa, (-13));
(0x18020fb054d7ff, (-13));
(0x1789056e2a47a2, (-13));
(0x162c3dcce14a16, (-13));
(0x141313dd256713, (-13));
(0x1176930d1144fe, (-13));
(0x1d2f7bc3c27a6e, (-14));
(0x176af31a1fb8a0, (-14));
(0x12086b52352f0c, (-14));
(0x1aa2e731b0649a, (-15));
(0x12da41a766258c, (-15));
(0x198cfaabce1632, (-16));
(0x108f09fbf0868e, (-16));
(0x147fcc6d0243d2, (-17));
(0x1833907a32dda7, (-18));
(0x1b333695374abf, (-19));
(0x1d0ace4d65d764, (-20));
(0x1d637e9b9a3502, (-21));
(0x1c1b35182de7ca, (-22));
(0x19520e5c382568, (-23));
(0x15677ed0f9e611, (-24));
(0x10e64abb8e4035, (-25));
(0x18c93a686a3c0a, (-27));
(0x10c49c62a4b9e4, (-28));
(0x14c0fcf294a524, (-30));
(0x173fbcb361b1da, (-32));
(0x173fbcb361b1da, (-34));
(0x145fd750c61ad8, (-36));
(0x1e7feaf8a09e97, (-39));
(0x12c4df5decb05d, (-41));
(0x11dc9d37c0e969, (-44));
(0x1773bb6fa96c50, (-48));
(0x10000000000000, (-52))];
[(0x152ac13ec00000, (-22));
(0x16a0e4829d1e19, (-21));
(0x16acbac8908803, (-20));
(0x1565ee80a9ec1f, (-19));
(0x13175153776584, (-18));
(0x10276c32eedfbf, (-17));
(0x19fedd72cfab07, (-17));
(0x13ef070f18e95e, (-16));
(0x1d304a561b55b7, (-16));
(0x146fa6529cbd73, (-15));
(0x1b66d85500a4ca, (-15));
(0x119c5531d03968, (-14));
(0x15b846f0a2f178, (-14));
(0x19b91bd6ddab7b, (-14));
(0x1d4583297b5fc7, (-14));
(0x1002b25d258a07, (-13));
(0x10d7d5de76ca08, (-13));
(0x110b454a93bfc6, (-13));
(0x1097b5ca4fb11b, (-13));
(0x1f14b0a792f697, (-14));
(0x1c00de1cc257cb, (-14));
(0x1844627d56b426, (-14));
(0x14386544d1b138, (-14));
(0x103188c012d670, (-14));
(0x18ea7ff2415761, (-15));
(0x1266d594727f51, (-15));
(0x1a12c160f411eb, (-16));
(0x11b3b92aec4019, (-16));
(0x1702a3a5dc6981, (-17));
(0x1c9887bf657c2a, (-18));
(0x10f6538c51e791, (-18));
(0x132d257ad2808b, (-19));
(0x149e3045a69826, (-20));
(0x150866726fc39b, (-21));
(0x144d350396bb0d, (-22));
(0x127b525fb9575f, (-23));
(0x1f9dc045ff7a82, (-25));
(0x194b0037ff9534, (-26));
(0x12d2719a6b8102, (-27));
(0x19e275da339f9e, (-29));
(0x104f8155901ea9, (-30));
(0x12a401865b90c2, (-32));
(0x130ef8fa88128e, (-34));
(0x111e2edaf1c32e, (-36));
(0x1a55d1ee603ff8, (-39));
(0x10b549f2ca89da, (-41));
(0x1073fb9fb966a4, (-44));
(0x16732f8d0e2f76, (-48));
(0x10000000000000, (-52))];
[(0x1f846a58000000, (-25));
(0x1272fa2479d83d, (-23));
(0x1422439458bd4b, (-22));
(0x149aaf709a71a5, (-21));
(0x13ddf086be7f28, (-20));
(0x121e6c9e8c30cf, (-19));
(0x1f5c0ac3a3de53, (-19));
(0x19d1b8e898307c, (-18));
(0x1445168bbb3592, (-17));
(0x1e67a1d198d05c, (-17));
(0x15d1df91fcd1b4, (-16));
(0x1e01d9ea368f2f, (-16));
(0x13caedbacb720e, (-15));
(0x19121c0ebd6e56, (-15));
(0x1e8430f6ce1a7c, (-15));
(0x11dbeeb49e8c3d, (-14));
(0x141c7ba7e0ebcc, (-14));
(0x15cc57044a2be1, (-14));
(0x16bf5f6f930861, (-14));
(0x16dc04676dbd9e, (-14));
(0x161f9d0dbf96cf, (-14));
(0x149ecc1ad5b92f, (-14));
(0x1281dd9557f374, (-14));
(0x1ffbf7aeaadcb4, (-15));
(0x1a999170f7ae20, (-15));
(0x15484c9faa6459, (-15));
(0x105f7edb5a64e0, (-15));
(0x18351ed809992d, (-16));
(0x112eb00b618227, (-16));
(0x1765fb84f28469, (-17));
(0x1e882ffc936d9f, (-18));
(0x13105a7f98fd71, (-18));
(0x16bfed3c5cd9aa, (-19));
(0x19e6130b36d1bc, (-20));
(0x1c12352feeea31, (-21));
(0x1ce6cc59039746, (-22));
(0x1c30ab9f6708e0, (-23));
(0x19f7823c36419b, (-24));
(0x16812c9a956c0f, (-25));
(0x1244fdb2cdba5f, (-26));
(0x1ba31fa2f9cf6f, (-28));
(0x135993cb4e481e, (-29));
(0x18e0e297adca70, (-31));
(0x1d11e1b78db505, (-33));
(0x1e7626dfbb1298, (-35));
(0x1c1e4b44acaeb4, (-37));
(0x164c9e54fdbc10, (-39));
(0x1d47474caed13d, (-42));
(0x1df664dcb113f3, (-45));
(0x155aaa002a9d59, (-48));
(0x10000000000000, (-52))];
[(0x134cd6f0000000, (-27));
(0x18e7741c302045, (-26));
(0x1dbd3a68c5c084, (-25));
(0x108f006f0bc6e6, (-23));
(0x114c6a488ea2a1, (-22));
(0x1108cd433d5d53, (-21));
(0x1fbf19d175debc, (-21));
(0x1c155bc32358ba, (-20));
(0x17a5bcabfc3fbd, (-19));
(0x12ff2079b65014, (-18));
(0x1d2c5f9657fafa, (-18));
(0x15725a45548956, (-17));
(0x1e3b402bc00e0a, (-17));
(0x1473ae61a0ffdf, (-16));
(0x1a9662b21e196e, (-16));
(0x109e5bf7e6f325, (-15));
(0x13fde1efa6260e, (-15));
(0x1727f23a6253d2, (-15));
(0x19d6292a01e5c7, (-15));
(0x1bc7605b7f7cd7, (-15));
(0x1cc9ae11cae2eb, (-15));
(0x1cc27e580f5ecb, (-15));
(0x1bb2fce4ece527, (-15));
(0x19b7d123b1c3e6, (-15));
(0x17043fc2ab298e, (-15));
(0x13d9d08dbfb1fc, (-15));
(0x107e50a1e3b498, (-15));
(0x1a6480eb01c6d3, (-16));
(0x1452dadb33170f, (-16));
(0x1e1b0d5f87185f, (-17));
(0x156e209ddc2782, (-17));
(0x1d4b9c32beaa1b, (-18));
(0x1334d1e653bc3e, (-18));
(0x182041a2dc16de, (-19));
(0x1cfdcb56b2e616, (-20));
(0x10a2c452cf1261, (-20));
(0x1232cd3a5e34bd, (-21));
(0x12ef10098a08e1, (-22));
(0x12afb31a9ce54f, (-23));
(0x1170c94c09e716, (-24));
(0x1ead3ad41534de, (-26));
(0x194ffd8e515392, (-27));
(0x137e97430a303c, (-28));
(0x1bd96a5fc5697a, (-30));
(0x124dee176f5a2e, (-31));
(0x15ebba918e088d, (-33));
(0x179b66755de1d3, (-35));
(0x1677461534ef9a, (-37));
(0x126f8d6b1573a5, (-39));
(0x1927c1ab1b6774, (-42));
(0x1ae463a900d0bb, (-45));
(0x142641cf569571, (-48));
(0x10000000000000, (-52))];
[(0x13190c80000000, (-30));
(0x1b67f34b0a89f1, (-29));
(0x1205980d676d41, (-27));
(0x15f155aa4a52ec, (-26));
(0x18ec81dcc2de5f, (-25));
(0x1a91a4c386c309, (-24));
(0x1ab555419351a1, (-23));
(0x196ad4512c208e, (-22));
(0x16f92c35accea8, (-21));
(0x13c63d3c0a719a, (-20));
(0x103f0dcc617ea9, (-19));
(0x1987a7f806eb9d, (-19));
(0x133710ad8a3410, (-18));
(0x1bbf14627875f9, (-18));
(0x133d700b76a5cc, (-17));
(0x19a7400f48dd11, (-17));
(0x1074e8fb6fd10b, (-16));
(0x1454fe6b714d37, (-16));
(0x1834503ec4ac9b, (-16));
(0x1bc72013c2bdd7, (-16));
(0x1ebe92ccd33ec5, (-16));
(0x1069cf2285bf62, (-15));
(0x10e8e3e9c4d43c, (-15));
(0x10cfbf18acfca2, (-15));
(0x1021203a5c1384, (-15));
(0x1ddda7ce0ce220, (-16));
(0x1aad8e1f489f39, (-16));
(0x16fc9ef30671b3, (-16));
(0x131957337cb7cf, (-16));
(0x1e974a5c72c9b8, (-17));
(0x1799f8c617ee8b, (-17));
(0x1187dd2ce5abb8, (-17));
(0x190dd5364fd526, (-18));
(0x113535d169d6f1, (-18));
(0x16b2474d908bdc, (-19));
(0x1cb57c4feb90a2, (-20));
(0x1163915cf49297, (-20));
(0x14242a9f44880c, (-21));
(0x1643cf0805e52d, (-22));
(0x1770516e4b426c, (-23));
(0x1770516e4b426c, (-24));
(0x1632fc6ccf5a38, (-25));
(0x13d8031f91ff2f, (-26));
(0x10ac105ecd5ae8, (-27));
(0x1a32f52742b36d, (-29));
(0x132211bea31dcd, (-30));
(0x19c700c0777e42, (-32));
(0x1fb9d98a6baf16, (-34));
(0x119cbb6a046d88, (-35));
(0x1157e476eb8694, (-37));
(0x1d94b4bbb68f09, (-40));
(0x15150aca880785, (-42));
(0x17b1c0711b706c, (-45));
(0x12d09c7b54e03e, (-48));
(0x10000000000000, (-52))];
[(0x1dc34c00000000, (-34));
(0x180e9ab63164bf, (-32));
(0x1194bbf8418f92, (-30));
(0x178eed7a65431e, (-29));
(0x1d3c3cd87b2b1e, (-28));
(0x10edde25434192, (-26));
(0x12685121cc1f57, (-25));
(0x12e1b7b6c22c57, (-24));
(0x1257e64c90d6e8, (-23));
(0x10eead32fbda11, (-22));
(0x1dc8656561ffb9, (-22));
(0x19034849623a8d, (-21));
(0x14197ea8aeef0c, (-20));
(0x1ef5a5b03ef7be, (-20));
(0x16e2857642c21b, (-19));
(0x10418428a3b2e8, (-18));
(0x163767d123fd0a, (-18));
(0x1d3c13835f4550, (-18));
(0x1288e6e82389db, (-17));
(0x16a9426251028c, (-17));
(0x1abaaefaa10120, (-17));
(0x1e6dd8f40aaf41, (-17));
(0x10b9070f44d404, (-16));
(0x11c0280415e6af, (-16));
(0x1232f135394228, (-16));
(0x120619bcd4100d, (-16));
(0x113e38a41aa237, (-16));
(0x1fde067371d5d6, (-17));
(0x1c70548c6c3d43, (-17));
(0x188106e658808c, (-17));
(0x1460ff4f433f5d, (-17));
(0x105a0036bd6027, (-17));
(0x194dac75ceed19, (-18));
(0x12de0964739bd5, (-18));
(0x1b18683ee3992c, (-19));
(0x12b83ca96448f8, (-19));
(0x18dcd75ad23ba3, (-20));
(0x1fb4262b75a882, (-21));
(0x1361860577eec5, (-21));
(0x16af450357b853, (-22));
(0x195f88ed3e4af9, (-23));
(0x1b10920e204ff9, (-24));
(0x1b76df2fc6b15e, (-25));
(0x1a70567ed07376, (-26));
(0x18106b6f91e47f, (-27));
(0x14a05c167d0cff, (-28));
(0x1091da3a9553da, (-29));
(0x18cde4bed04554, (-31));
(0x112c14841a089c, (-32));
(0x15ca1bfc8e795d, (-34));
(0x19086ec7e94cda, (-36));
(0x199e27e00670c6, (-38));
(0x16d27831f22d77, (-40));
(0x111994490dd86f, (-42));
(0x145e22777d7f3c, (-45));
(0x11520cd1372fea, (-48));
(0x10000000000000, (-52))];
[(0x1192c000000000, (-37));
(0x10500af9c36b30, (-35));
(0x1ad776670f1adf, (-34));
(0x13f8ff60876019, (-32));
(0x1b423acff2d02e, (-31));
(0x113b9ada9b6b42, (-29));
(0x145779ab1df639, (-28));
(0x168d3c1a70682d, (-27));
(0x1798681a508b05, (-26));
(0x1763f14db0ec03, (-25));
(0x160a7bff5cde66, (-24));
(0x13cbf3bbd802d7, (-23));
(0x10fccd8edc6657, (-22));
(0x1be8764620f145, (-22));
(0x15fb63b11f538c, (-21));
(0x10a06b813e1231, (-20));
(0x182ef2e0deac90, (-20));
(0x10edaa03cf1265, (-19));
(0x16d540198b4b76, (-19));
(0x1db1d1be782041, (-19));
(0x12a165f5b992f1, (-18));
(0x1691a0fb05da17, (-18));
(0x1a6812982708e6, (-18));
(0x1dda7d780937a9, (-18));
(0x104f6945ae5464, (-17));
(0x113a9b36499467, (-17));
(0x1198a8df0d2116, (-17));
(0x116089bf997bb6, (-17));
(0x1097bf614219a1, (-17));
(0x1ea2ec7a366668, (-18));
(0x1b572128fb75df, (-18));
(0x179473bb17cc7e, (-18));
(0x13a5cd426e7d1b, (-18));
(0x1f9ec281c04390, (-19));
(0x188f4c7ab76e46, (-19));
(0x1266e0370e0ea5, (-19));
(0x1a9531abe86fd1, (-20));
(0x127e6180caf649, (-20));
(0x18c2ea4339e285, (-21));
(0x1fde0ccc67f0aa, (-22));
(0x13af94a200bc32, (-22));
(0x175070ea1b681e, (-23));
(0x1a6c3bb3fced78, (-24));
(0x1c99b71a9fcb1b, (-25));
(0x1d7fc5cd906c54, (-26));
(0x1cea37c2257248, (-27));
(0x1ad97ceb22c58c, (-28));
(0x17879f802e17db, (-29));
(0x135f6ce6988e78, (-30));
(0x1dcde29dd70291, (-32));
(0x1545cda61dd207, (-33));
(0x1bee35624322c6, (-35));
(0x10ac671f9fb759, (-36));
(0x11d31d53e48190, (-38));
(0x10b1bf942dd190, (-40));
(0x1a83483fe38f4b, (-43));
(0x10e8e138210399, (-45));
(0x1f3db2174e7468, (-49));
(0x10000000000000, (-52))];
[(0x1d8c0000000000, (-42));
(0x103fa53a16294f, (-39));
(0x1eafac5decedc4, (-38));
(0x19b0705b57832b, (-36));
(0x1374db3e1be115, (-34));
(0x1b097b290b32f2, (-33));
(0x1168c2bbe88cea, (-31));
(0x14f0098ac6963a, (-30));
(0x17a8a5e7cd6b9c, (-29));
(0x193d307541b692, (-28));
(0x19852c033f83c6, (-27));
(0x1889e56595afef, (-26));
(0x167fcde55537cb, (-25));
(0x13b7a3badd3f69, (-24));
(0x108c696a8bf9cb, (-23));
(0x1aa5fcccff9877, (-23));
(0x149d41d3e0c1a7, (-22));
(0x1eae424b591b19, (-22));
(0x15fce2b5ffdbf4, (-21));
(0x1e616c50f41af6, (-21));
(0x143fbfe91a9000, (-20));
(0x1a0f605eb13a1f, (-20));
(0x10332d291efd37, (-19));
(0x137784d3dd97f3, (-19));
(0x169e8982f0e5e8, (-19));
(0x196c007e5ca74b, (-19));
(0x1ba4c848da1128, (-19));
(0x1d16b60cbbf0a2, (-19));
(0x1d9fbf0f4ed34a, (-19));
(0x1d330a04851060, (-19));
(0x1bdae19ab0529d, (-19));
(0x19b7218cb52fe0, (-19));
(0x16f871ec621576, (-19));
(0x13d94905ad6af9, (-19));
(0x109611c54fa3e5, (-19));
(0x1acbc92b3f1133, (-20));
(0x14e9fb521ad263, (-20));
(0x1f8679d3798307, (-21));
(0x16edd985086a55, (-21));
(0x1014ba37ef3c37, (-21));
(0x15bb0c644e7513, (-22));
(0x1c42cfec0cbfc7, (-23));
(0x11aa262b61d94c, (-23));
(0x153294340f04c2, (-24));
(0x1860ee2069854b, (-25));
(0x1ad229c682ca3c, (-26));
(0x1c2ae9e660a3bb, (-27));
(0x1c2ae9e660a3bb, (-28));
(0x1abdf055553239, (-29));
(0x1804de212cb842, (-30));
(0x1452e35725d6fc, (-31));
(0x101e289b22e7c6, (-32));
(0x17cebd7d62d68d, (-34));
(0x103e16eae16cc8, (-35));
(0x14420c7d90ee72, (-37));
(0x16c49d9bd38937, (-39));
(0x16996302ea05e8, (-41));
(0x1337d65f90515e, (-43));
(0x1aa1206d4718f7, (-46));
(0x1b46bfc05aeb89, (-49));
(0x10000000000000, (-52))];
[(0x1f800000000000, (-47));
(0x15bf9610a5bdfb, (-44));
(0x18519652d1b60c, (-42));
(0x175a49241fbd8e, (-40));
(0x13e30ee45f31e1, (-38));
(0x1ea7039435af90, (-37));
(0x15ad87e90fd51e, (-35));
(0x1c6ca81b0a7e5e, (-34));
(0x1168c2bbe88cea, (-32));
(0x140aff26213f7a, (-31));
(0x15caf97fdbbf88, (-30));
(0x1677bd32d06b81, (-29));
(0x160920f1d6420d, (-28));
(0x149dd92faa2721, (-27));
(0x1271a26cad603f, (-26));
(0x1f9e3b03725bda, (-26));
(0x1a02d62525785b, (-25));
(0x1491844fbf9054, (-24));
(0x1f4ee4f6270abb, (-24));
(0x16f596d6a52a00, (-23));
(0x103d351ff13389, (-22));
(0x162cd2ee8f2c46, (-22));
(0x1d4099fb04c989, (-22));
(0x12a68ed3ec74ef, (-21));
(0x1700680757b9fd, (-21));
(0x1b72e0ae49ecd9, (-21));
(0x1fb4e78d0a1db7, (-21));
(0x11bb3d3871942e, (-20));
(0x133501e26c8a27, (-20));
(0x14273b998e6399, (-20));
(0x147c31b2c845e0, (-20));
(0x142c201a32dfcb, (-20));
(0x133e5d3b574966, (-20));
(0x11c843a59bc14b, (-20));
(0x1fd42f02303565, (-21));
(0x1b9509e60602f3, (-21));
(0x1723258298ade6, (-21));
(0x12c7dd18ef3643, (-21));
(0x1d7d3d2a3bf503, (-22));
(0x166178318225eb, (-22));
(0x1068ec3ba506e9, (-22));
(0x173b261e7d9c18, (-23));
(0x1fb90e79eeff78, (-24));
(0x14df434ec4b1d2, (-24));
(0x1a70220e709cf9, (-25));
(0x1018d6da3ce041, (-25));
(0x12d107d982986e, (-26));
(0x15142757a19291, (-27));
(0x169597dde3f877, (-28));
(0x171730b043b0f1, (-29));
(0x1677bd32d06b81, (-30));
(0x14bd4c2ee7c5b2, (-31));
(0x121799ffe1e776, (-32));
(0x1db179ff998d72, (-34));
(0x16ca4e0d430c40, (-35));
(0x103e16eae16cc8, (-36));
(0x154c2bb391cce4, (-38));
(0x195e149df776cf, (-40));
(0x1af72135a820eb, (-42));
(0x18e8d68ceea80e, (-44));
(0x1322d29d7f3f83, (-46));
(0x16732f8d0e2f76, (-49));
(0x10000000000000, (-52))];
[(0x10000000000000, (-52));
(0x10000000000000, (-49));
(0x16732f8d0e2f76, (-47));
(0x1983c37ca9aa04, (-45));
(0x18e8d68ceea80e, (-43));
(0x159280f7b9b3ef, (-41));
(0x10e96313fa4f35, (-39));
(0x18570d5f820ebb, (-38));
(0x103e16eae16cc8, (-36));
(0x14420c7d90ee72, (-35));
(0x17c12e66147128, (-34));
(0x1a50dfffd43966, (-33));
(0x1ba7103e8a5ced, (-32));
(0x1ba7103e8a5ced, (-31));
(0x1a63a55bbb135d, (-30));
(0x18170864265e5d, (-29));
(0x15142757a19291, (-28));
(0x11b5ad08f36249, (-27));
(0x1c9defbcde0074, (-27));
(0x16437afeafac9c, (-26));
(0x10b29c3f03c175, (-25));
(0x182b78be6cf367, (-25));
(0x10e532fee6fd29, (-24));
(0x16d4c31b54e839, (-24));
(0x1dd74aecad87e5, (-24));
(0x12df834e3ada3f, (-23));
(0x171d5ee39c918e, (-23));
(0x1b6c0687d165cf, (-23));
(0x1f85c22b7495a8, (-23));
(0x118f8cb1c2526c, (-22));
(0x12f7bf9f951272, (-22));
(0x13dd47770fc7a3, (-22));
(0x142c201a32dfcb, (-22));
(0x13dd47770fc7a3, (-22));
(0x12f7bf9f951272, (-22));
(0x118f8cb1c2526c, (-22));
(0x1f85c22b7495a8, (-23));
(0x1b6c0687d165cf, (-23));
(0x171d5ee39c918e, (-23));
(0x12df834e3ada3f, (-23));
(0x1dd74aecad87e5, (-24));
(0x16d4c31b54e839, (-24));
(0x10e532fee6fd29, (-24));
(0x182b78be6cf367, (-25));
(0x10b29c3f03c175, (-25));
(0x16437afeafac9c, (-26));
(0x1c9defbcde0074, (-27));
(0x11b5ad08f36249, (-27));
(0x15142757a19291, (-28));
(0x18170864265e5d, (-29));
(0x1a63a55bbb135d, (-30));
(0x1ba7103e8a5ced, (-31));
(0x1ba7103e8a5ced, (-32));
(0x1a50dfffd43966, (-33));
(0x17c12e66147128, (-34));
(0x14420c7d90ee72, (-35));
(0x103e16eae16cc8, (-36));
(0x18570d5f820ebb, (-38));
(0x10e96313fa4f35, (-39));
(0x159280f7b9b3ef, (-41));
(0x18e8d68ceea80e, (-43));
(0x1983c37ca9aa04, (-45));
(0x16732f8d0e2f76, (-47));
(0x10000000000000, (-49));
(0x10000000000000, (-52))]]].

(** The entries of Wigner_coefficients.npy that these symmetries do not give: (2 ell, 2 mp, 2 m) and the double *)
Definition Wigner_file_exceptions : list (Z * Z * Z * (Z * Z)) :=
  [((49, (-49), (-47)), (0x1bffffffffffff, (-50)));
   ((49, (-49), (47)), (0x1bffffffffffff, (-50)));
   ((49, (49), (-47)), (0x1bffffffffffff, (-50)));
   ((49, (49), (47)), (0x1bffffffffffff, (-50)));
   ((51, (-47), (-43)), (0x14ffffffffffff, (-46)));
   ((51, (-47), (43)), (0x1d8effffffffff, (-39)));
   ((51, (47), (-43)), (0x1d8effffffffff, (-39)));
   ((51, (47), (43)), (0x14ffffffffffff, (-46)));
   ((52, (-46), (-44)), (0x1bffffffffffff, (-49)));
   ((52, (-46), (44)), (0x1d8effffffffff, (-37)));
   ((52, (46), (-44)), (0x1d8effffffffff, (-37)));
   ((52, (46), (44)), (0x1bffffffffffff, (-49)));
   ((57, (-39), (-41)), (0x14ffffffffffff, (-48)));
   ((57, (-39), (41)), (0x1a3d896cffffff, (-23)));
   ((57, (39), (-41)), (0x1a3d896cffffff, (-23)));
   ((57, (39), (41)), (0x14ffffffffffff, (-48)));
   ((64, (-34), (-32)), (0x1bffffffffffff, (-48)));
   ((64, (-34), (32)), (0x1bd73e9a5a3fff, (-12)));
   ((64, (34), (-32)), (0x1bd73e9a5a3fff, (-12)));
   ((64, (34), (32)), (0x1bffffffffffff, (-48)))].
