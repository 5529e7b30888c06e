(** Certificates for the proof about the power of five table: for each exponent from -342 to 308 two
    neighbouring fractions p2/q2 < p1/q1 with p1 q2 - p2 q1 = 1 and q1 + q2 >= 2^64, in the order
    (p2, q2, p1, q1). They are checked in FloatTableProofs.v; nothing is assumed about them. *)
From Verif Require Import Base.
Local Open Scope Z_scope.

Definition certificates : list (Z * Z * Z * Z) := [
  (0x366a5a59f172bb, 0x74981fc239c5c57f, 0x52b5f20e9a32df, 0xb138bd4e57dd1ce0);
  (0x17abba3663a159, 0x5126604c2833261f, 0x52b5f20e9a32df, 0x11b8dfbb08c94fb00);
  (0x32442547a31667, 0x89dc5f6f7784251f, 0x52b5f20e9a32df, 0xe2d7fc8d3d43fc00);
  (0x3a60987960dd85, 0x8015d22bed901579, 0xd7b00964d77c25, 0x1d93d13a18e70174c);
  (0x3a60987960dd85, 0xccefb6acaf4cef28, 0x27f10e19c9459f, 0x8c378ac8f19312ab);
  (0x52f5021e2b664e, 0xe8fad26e79372617, 0x27f10e19c9459f, 0x702c6f0727a8dbbc);
  (0x14985dc08baf4ec, 0x2e45b0ec16ac06ab7, 0x28b5c7946f7c63, 0x5b77234c281b5f83);
  (0x15cbbf902f64e1, 0x4e5a15436c6c5b95, 0x3c95b771ff585a, 0xd9ca5709f17a3581);
  (0xbece3ba8f502fd, 0x224b9fa658b817ddf, 0x1e4adbb8ffac2d, 0x571dbc6a6097489a);
  (0x9d5fc42fda987, 0x16a10f43881c36f9, 0xb4f83f65f75976, 0x1a05a1f741ab1c753);
  (0x1dff851efd2a54, 0x6e6ce568424569d5, 0xa0ceb689f7d8a9, 0x24ff1cbbd8f042d0b);
  (0x257f6666bc74e9, 0x6e6ce568424569d5, 0x91cef3fa79437f, 0x1ad62ada124b4601a);
  (0xe521f0f9832682, 0x21bcf930966f9c9ef, 0x3627c6c9de674b, 0x7f958349f42c6282);
  (0x36418292b5fd6ba, 0xcc836bccea48defdd, 0x2a2e2fd1a7fea3, 0x9efeeb85dcaa1c97);
  (0xc3e36651ff8ff, 0x24eb55bd5c817b3a, 0x63545c59940018, 0x12b882c2d0b137b91);
  (0x25134d7b84f905, 0x59711a3a190514e5, 0xa13cc0eb7df923, 0x184f9466724189076);
  (0x25134d7b84f905, 0x8f1b5d29c1a1bb08, 0x56debb84dcde54, 0x14f4f03777b7bea53);
  (0x5082ab3df3682f, 0xf89be58465e6268e, 0x1c13bf2820adba, 0x56b31df31595c3c5);
  (0x5082ab3df3682f, 0xc6e31e0384b81ed8, 0x4b5a0491228d40, 0xba24acf4d7f1d331);
  (0x216a68633dcfe7, 0x84138310c934c48f, 0x2f1842dab59848, 0xba24acf4d7f1d331);
  (0x216a68633dcfe7, 0x69a935a7075d6a0c, 0x3ade539162fe5a, 0xba24acf4d7f1d331);
  (0x1fd9f4d46285d, 0x5092611d7c1ccfb, 0x97270f8603cc9b, 0x17e5ba60d5f674058);
  (0xbf6dda881c7236, 0x18364cc1f37290d53, 0x4a94b81c5ed21f, 0x96edcccb030efaf2);
  (0x1a6ac2719b40bb, 0x55893289310b176f, 0x5525d2b036859d, 0x113b35be21882ce16);
  (0xa8d2428993da5f, 0x1b54d6bc20c8a94fb, 0x1d5d881f4da271, 0x4c10dd56c2fcaf76);
  (0x142e6a8aeabcc3, 0x29d22a59271db485, 0xf7bbbd5319dc04, 0x2015e4918cf874471);
  (0x120ca6a42f275e6, 0x3bd850bda61a4d869, 0x14e04264eddd1f, 0x453786573d69b079);
  (0x3dc2795e45aeea, 0xa3d13308c7c37e4b, 0x2a9ed29a5fa2b1, 0x710ce6542de34399);
  (0x9a662f6bae3549, 0x147a266118f86fc96, 0x43a14453e41488, 0x8f82adf3bd69cd37);
  (0xb3c2a90b23bcfc, 0x262523ee18a7ddc11, 0x2a44cab46e8cd5, 0x8f82adf3bd69cd37);
  (0x5c8d3413ec40e8, 0xfb62675deec3acab, 0x2798eb26142a6b, 0x6b8d7025acf682bb);
  (0xc9900648f19c01, 0x1b5faea6e723d8d85, 0x55df85300a4adf, 0xba9883108379e0da);
  (0x15ea4f1d542bb5, 0x4c313ccb5aab0da9, 0xb3a5b72b9d704c, 0x270936d7ef5b76e5f);
  (0xc9900648f19c01, 0x2309d5508404ec9a0, 0x16ff1ead93305e, 0x3ff61876b568a4bf);
  (0x5f083b791401e9, 0xd3741d1ec23dc94d, 0x397dccb1eff8eb, 0x7fec30ed6ad1497e);
  (0x1c735cb729819a, 0x6549a1495f2e6a15, 0x14ce859c994818b, 0x4a130c287360637ff);
  (0x472067c9e7c401, 0xca934292be5cd42a, 0x1f50347ec5192a, 0x592ee8ec12521ce3);
  (0xc140c85e00f21, 0x1b852879dac0a9ef, 0x66709c48acdd2b, 0xe96822cbda258da4);
  (0x30fbc59064e02d, 0xb29280be81f10fb1, 0x2d2e47e1666705, 0xa4b5950e65ea4fc4);
  (0x30086624a541e3, 0x8c15d1752f25e62b, 0x2b478909e72a71, 0x7e38e5c5131f263e);
  (0x493cd07da768b1, 0xaadff74971620763, 0x5db05dbbeb780d, 0xda975741d9d389e6);
  (0x17d62ff7e92abf, 0x58fbcc4258a9b699, 0x3166a085be3df2, 0xb86a8c33298cbb9f);
  (0x1844c01d6424dc, 0x487a0757f8933b5d, 0x93c5516bbfbfb9, 0x1b94f1fbe4bacb29b);
  (0x6113007590937, 0xe7ece44cb50a579, 0x30130873f7becb0, 0x72db68651274605c9);
  (0x1e55f024bd2e13, 0x73f672265a852bc8, 0x5a14e0e096745f, 0x158599da228f35ecd);
  (0x186a973a716ff8f, 0x4aab0ba2598421f30, 0xeefbc2ef65193, 0x2dad6f18c2e2d701);
  (0x4efeb1af11d9ec, 0xc142b621f52a626f, 0x4aaeaceacf97df, 0xb6b5bc630b8b5c04);
  (0x13bfac6bc4767b, 0x4d4de273fbaa8dc6, 0x377c9193cc569bc, 0xd9323d8a194541905);
  (0x13bfac6bc4767b, 0x3dd7e85cc9553e38, 0x4697b0bf7bb3aa6, 0xdd0fbc0fe5da9573d);
  (0x62be5e1ad65067, 0xf75fa1732554f8e0, 0x4b0230925ff29e, 0xbbe986c11122a069);
  (0x2883b0ddd9f7720e, 0x51329d5dc1fb807225, 0x441fbb320324db, 0x88882854abf5b6d5);
  (0x86cdc140cc803, 0x1b0455fcb47cb624, 0x530c72f980bc11, 0x10a4f3b2a2acc4021);
  (0x86cdc140cc803, 0x159d1196f6ca2b50, 0x69eac6bce41d16, 0x10fb67f8fe87ecaf5);
  (0x1eb11fb93f6b47, 0x3efced592ad0a051, 0x108caf0d83a48b7, 0x21f6cff1fd0fd95ea);
  (0x3af8cc066cbc3bd, 0xc1a449793a4aafd8f, 0x1d433a23df5bae, 0x601669f487a29785);
  (0x1985299057abc1, 0x4309fcc6fe519349, 0x49281159ae6533, 0xc02cd3e90f452f0a);
  (0x9329fd8932f1ea, 0x13544c0574791cd6d, 0x17d173e4ab5cb9, 0x320defa739fb0b1a);
  (0x86b91ad1376adb, 0x1c4ff6d237b63bda3, 0x2442569ca6e3c8, 0x79eb460d53e40335);
  (0x86b91ad1376adb, 0x16a65f0e92f82fe1c, 0x2d52ec43d09cba, 0x79eb460d53e40335);
  (0xab4e613d6f185, 0x170a4d83258395a3, 0x7c0434bd607956, 0x10ae0d99dcd4b9c0d);
  (0x122dc01ca1cb8c, 0x3e977dba6b43c177, 0x1d9a644db215743, 0x65ed6d204fa903d63);
  (0x48b70072872e3, 0xc84b2bee240c04b, 0x949563855f79a15, 0x199464ad91aec27622);
  (0x16b93023ca3e6f, 0x3212cafb8903012c, 0x23cbf39f37dc4cf, 0x4ee1be1e160ca701d);
  (0x1623ff553288f0, 0x4e100e8241b82483, 0x4555f2088e264b, 0xf4763ad7c4a7c05a);
  (0x1bacff2a7f2b2c, 0x4e100e8241b82483, 0x4555f2088e264b, 0xc391c8ac9d530048);
  (0x1075bd46ea8c939, 0x252445f3b7c543b18, 0x4c4131d32df116, 0xac11703dbe340787);
  (0x237a55723cf69c, 0x8016c17574e76085, 0x4b5f1b560ff071, 0x1101ed62424927f8b);
  (0x2c58eacecc3443, 0x8016c17574e76085, 0x4b5f1b560ff071, 0xd9b244e9b6db993c);
  (0x4a46ec58033d70, 0xaba0cf3dccace591, 0x4b5f1b560ff071, 0xae2837215f161430);
  (0x54a7f8e110581f, 0x138fa1b41c112b49d, 0x263ba52a0e51b9, 0x8d594c03f465cf0c);
  (0x2222b7a70706273, 0x64f5e593ec8ab3bc8, 0x1eb8e782c7aa76, 0x5add7b0df1181a55);
  (0xeaae9bd4be9c26, 0x22b48423e5f2c63fb, 0x4cce42c6f32a27, 0xb5baf61be23034aa);
  (0x32ab4dec472ce7, 0xbfd256069acbfaa7, 0x244537a387063b, 0x894fab5a87a9f224);
  (0x2f11c85a17233c, 0x8e8e22afab35fa05, 0x1377cde9bb1c64d, 0x3af6048219b57cda0);
  (0x3ad63a709cec0b, 0x8e8e22afab35fa05, 0x349b10ac328483, 0x7f753aaf8af2586a);
  (0x3a0ed5380f9f1a, 0xe111a2b2a515a2e9, 0x3629db1d4d1e65, 0xd1f8bab284d2014e);
  (0x1076325b652821, 0x330d7d56fab8fad3, 0x80aee2b0c1e5a0, 0x18f15c80e4f724aff);
  (0x1076325b652821, 0x28d79778c893fbdc, 0xa0da9b5cf25f08, 0x18f15c80e4f724aff);
  (0x4cc82c9e400bc4, 0x130cc6a637097bff9, 0x17c0747bd76fa1, 0x5e495daadeda8b06);
  (0x5ffa37c5d00eb5, 0x130cc6a637097bff9, 0x17c0747bd76fa1, 0x4b6de488b2486f38);
  (0x89c91d1425a61b, 0x15e0e59e8a85ccf81, 0x17c0747bd76fa1, 0x3c57ea06f506bf60);
  (0x9a6b0cfc4d7be9, 0x139d99a4ae2258fe1, 0x17c0747bd76fa1, 0x304654d25d9eff80);
  (0x51aa9f5049c7ad, 0x10993457884869061, 0x76b216bc8ae18, 0x181fe0387b49e253);
  (0x1bb91fb516a2153, 0x481f969ebe6996a59, 0x1dac85af22b86, 0x4d32cd818a86077);
  (0xdb778337065a42, 0x1c8c3ca531061ca13, 0x4a2f4e35d6ccf, 0x9a659b03150c0ee);
  (0x6dbbc19b832d21, 0x16d696ea8d9e7d4dc, 0x213aa28315934b, 0x6ea70f0a991b7713);
  (0x91795aa3295d3c, 0x1838ad8115eed5313, 0x213aa28315934b, 0x5885a5a21415f8dc);
  (0x4be061774972a2, 0xa1b530558f499df5, 0x69f74fd4aa41e9, 0xe1d5a7bbcfa3b51e);
  (0x36f1f881e61b77, 0xbb5bc67e75d40d9f, 0x1e16ee5d60cf47, 0x669a58a39a29bea8);
  (0x3d28bb0b076e83, 0xa6d68190f0988117, 0x986864736fac4d, 0x19fc216d7f61f344e);
  (0x356447df9dc6b4, 0x7484eb482e24bde1, 0x3f75a36191e97569, 0x8a7d9ae3241e1bea1a);
  (0x42bd59d7853861, 0xe909d6905c497bc2, 0x1b4c9ef721ea58, 0x5f528b1c5dab310f);
  (0x2770bae0634e09, 0x6e2c3c5ccbb1d55c, 0x499081954db2f7, 0xcd7ec779295d066b);
  (0xb306bc2f70dc9, 0x19012f85d8581855, 0x76e0b40d2f25ae, 0x109a8a4ca445eab1d);
  (0x82111fd0263377, 0x1d10fba19c78ad250, 0x29c8289433eaaf, 0x9564b643d27bf689);
  (0x2e80cea7be5e19, 0x85050adb4edbea98, 0x3fda6663307ce1, 0xb6a5f8faa632f12f);
  (0x2e80cea7be5e19, 0x6a6a6f15d8afeee0, 0x4430cc520d0493, 0x9c0b5d353006f577);
  (0x8ea33f4a5c2b7, 0x20a3fccf4534f7d5, 0x7d8999cef2b5e9, 0x1cba39ef78703d904);
  (0x8ea33f4a5c2b7, 0x1a1cca3f6a90c644, 0x9f268d3fd8d411, 0x1d22ad18761a80a95);
  (0x8ea33f4a5c2b7, 0x14e3d4ff8873d1d0, 0xc92abd8cf879c3, 0x1d763c6c743c4ff09);
  (0x1c7d2b2d5d383d, 0x6acfdac12c39b0e5, 0x1d43a05695126b7, 0x6db7eb998d86fe19a);
  (0x1c7d2b2d5d383d, 0x5573156756948d84, 0x26ce4fcbc59f6b1, 0x7464e945a04a9927f);
  (0x335239d9cd5a0e, 0x7b255e788ed54ab1, 0x5b1f9e0904bf23, 0xdaa6f724cb7ceb5f);
  (0x19a91cece6ad07, 0x62844b93a5776ef4, 0x85265b3cf2f0b1, 0x1ff3126f8531369f5);
  (0x19a91cece6ad07, 0x4ed03c761df92590, 0x93311c5a82ab18, 0x1c414f99fbc988dc9);
  (0xacda394769581f, 0x1a8b75e77e20e2914, 0xb232a29b9fdbf, 0x1b5d9b27da8a64b5);
  (0x1436e1e3b5eb4c, 0x4f785a4334b3f413, 0x2d2c2f12b154987, 0xb19707be89f859c1b);
  (0x50db878ed7ad3, 0xfe4deda3dbd9737, 0xe699c84ed54a200, 0x2d542afe6c1c324ca5);
  (0x19449a5ca3661f, 0x3f937b68f6f65cdc, 0x3904bb0497a32da, 0x8f76734b86fa783c9);
  (0x7e5703cf30fe9b, 0xfe4deda3dbd97370, 0xd4bcbfef1a8af, 0x1ac35cf4ba2fd61d);
  (0x310a1aed909490, 0x9def6df9a925a349, 0x378862fb88d0469, 0xb2d8ee41c9cc32a57);
  (0x3d4ca1a8f4b9b4, 0x9def6df9a925a349, 0x36c43a8fd28df45, 0x8d1a8d3b1c1fb0137);
  (0x4c9fca1331e821, 0x9def6df9a925a349, 0x34d9d5828ae826b, 0x6cef416f724535942);
  (0x4c47d4e880b701, 0xfb9036e9aeb18dd5, 0x1b7c9d575f5a0, 0x5aa5d3cdfb5551f);
  (0x4bd9e273233999, 0xc81e19485f036071, 0x99d9813119e63a, 0x195e68fcd9dbc1601);
  (0x4ac7044db98015, 0x9dd3eeee58ed5e4e, 0x4d762fab41cfdf, 0xa37e4c2b38a2b36d);
  (0x260f4cfe3ed3fd, 0x80874ad707066d7e, 0x146dd04a6006da3, 0x44fd2b69d7b214ced);
  (0x260f4cfe3ed3fd, 0x66d2a2459f385798, 0x1a218190f103e0b, 0x469875f2ee2ef62d3);
  (0x10a230004e65d01, 0x23f32e8ccb3702a3e, 0x25eb3f86d61c88, 0x51f42fdb1b4765ef);
  (0x1185b37d776a7b4, 0x3c97d913162ab1a59, 0x17b307b445d1d5, 0x51f42fdb1b4765ef);
  (0x16b0be8d520643, 0x3ec59d44e816622d, 0xa3e0a3a00125af, 0x1c55bf9f63d4a5c16);
  (0x50ad765f4fd461, 0xb28d7491b7949bdd, 0x2fe733fc058973, 0x6a04740fcecfaf06);
  (0x3869507b1295eb, 0xc7c18bc814248bab, 0x2fe733fc058973, 0xa9a0b9b2e47f7e70);
  (0x3a89d79ad5d909, 0xa5d499d7800b0bfb, 0x2fe733fc058973, 0x87b3c7c25065fec0);
  (0xe22fde0307502d0, 0x2009a3ef635b363c2f, 0x1a9c42e5b6d89f, 0x3c4e79eb90169bbf);
  (0x6a70565bc5a047, 0x181f3ae569067caeb, 0x1a9cf820cc9ad4, 0x60802105f04d130d);
  (0x77bed26c2bedb1, 0x15b5c98ae06d8438e, 0x21443628ffc189, 0x60802105f04d130d);
  (0x159ea710cb0b0a, 0x322c17ee6ae8a34d, 0x2003f7fd9af784d, 0x4a4c202fe6fbe8104);
  (0x360ca1a9fb9b99, 0xc8b05fb9aba28d34, 0x26e16ed126508a, 0x905dc9a69e4cca9f);
  (0x114df520b439aa, 0x3366fdf5be980ff5, 0xa66b698db0b001, 0x1ee578b2436f9d512);
  (0x68d7272fb9a015, 0xf9239c043afbfec9, 0x3d94425df70fec, 0x9255a018bdcbdedf);
  (0x2cb90b4c1dee0d, 0xaa0b5ccb3c6d9f41, 0x204047a956e5da, 0x7a9fe3663f2a1e7d);
  (0x77deae28a08c97, 0x16c9d1a44857d449b, 0x102023d4ab72ed, 0x310cc15c19440c32);
  (0x33df4529fa8cd5, 0x7e39bd29c4e3b02a, 0xa9fe867c9eff65, 0x19da9dba09ec150cd);
  (0x42a32d544f1b27, 0x10372ce5a99cbd397, 0x7305b7f57ac73, 0x1bfd501c4011cd0c);
  (0x7669a633605aa1, 0x170d3641e17541e09, 0x160d0ff4958820, 0x44aef2efdecd0bbf);
  (0x7669a633605aa1, 0x1270f834b45dce4d4, 0x1b9053f1baea28, 0x44aef2efdecd0bbf);
  (0x87a3daaa752cfa, 0x21cc7c501e82e79df, 0x113a347714d259, 0x44aef2efdecd0bbf);
  (0x194bdc6f12e212, 0x50aec63a088413ad, 0x12081e9cbff2c4d, 0x39831fd8fbf54cc64);
  (0x3f3da715af352d, 0xa15d8c741108275a, 0x9693ec01c44eab, 0x18036f3784e3c55b1);
  (0x357464c5dce0f6, 0x6d1db32f4640e5cf, 0x3265800ceb26a4d, 0x66df981107f323c93);
  (0x3b016b10e82e1c, 0xc0b70ed08ab2e847, 0x4aa190ddc0044b, 0xf3bfbdec8e50aef5);
  (0x49c1c5d52239a3, 0xc0b70ed08ab2e847, 0x4aa190ddc0044b, 0xc2ffcb23a50d58c4);
  (0x4a31ab59711ef7, 0x9b15f0c81319b39e, 0x174101689fad825, 0x309b6703b79daf293);
  (0x122383aa5250bf, 0x3ca9ef515e3a6ac1, 0x5d6cecce88ad08, 0x138749de3408dd7b9);
  (0x122383aa5250bf, 0x3087f2a77e952234, 0x86ebabac7d2909, 0x168fc908abf22f9ed);
  (0x38674f80062f31, 0x78ba75f6719c20fd, 0x86ebabac7d2909, 0x120ca0d3bcc1bfb24);
  (0x24c63874e870bb, 0x7df0e6a1c4c6aa52, 0x3112b99bca5c27, 0xa80f97455a7fda27);
  (0xdcc49dbd2ff5eb, 0x25cda0f42e0d71c14, 0x3132049b87adb, 0x86c89ba51250991);
  (0x33593f132563e9, 0x708bdfb9756c6273, 0xa96b5eaa0a9202, 0x17355c615a4d94d9d);
  (0x2b022302ad6aa3, 0x96d364a1c9e0822d, 0x29b38c5257de5e, 0x923e06a2ba0088b7);
  (0x1fedf495ecace9, 0x5994299475f3829d, 0x227443f00cd20a9, 0x60a965363e7523604);
  (0xc1b17bc69176c2, 0x1b2ba4ae3d3655b43, 0x220bb4d8f21635, 0x4c69a491fb9750cf);
  (0x1cc15431648ef7, 0x6742fa1650d3466c, 0x31bef71b87bf80, 0xb2a407a98b637339);
  (0x1cc15431648ef7, 0x529bfb450d75d1f0, 0x3e2eb4e269af60, 0xb2a407a98b637339);
  (0x3bd8aea29966a7, 0x898b327b0f52d60a, 0x4dba621b041b38, 0xb2a407a98b637339);
  (0x9d01a9445e88ad, 0x24159f9b195b1d682, 0x30947d50e29103, 0xb2a407a98b637339);
  (0xa17ea1fefd24c25, 0x1db159f0443e5c5e25, 0x336589a550466c, 0x9732cd1239d10ebf);
  (0x339f1a7725a911a6, 0x797ceb09fe69ccbc69, 0xcd9626954119b, 0x1e3d5c36d85d02f3);
  (0x1dae8672ff7384, 0x6fc43eb8f55e3857, 0x403eec0ea45807, 0xf1eae1b6c2e81798);
  (0x76ba19cbfdce1, 0x165a72f1caac71ab, 0x1413a9c4935b823, 0x3c7ab86db0ba05e60);
  (0x76ba19cbfdce1, 0x11e1f58e3bbd27bc, 0x193642bc2b31d64, 0x3cc24043e9a8fa84f);
  (0x251a280fbf5065, 0x8f0fac71dde93de0, 0x274b130d36985b, 0x97828050c2bd28b3);
  (0x4d7db09bb18cbb, 0xef09455b42737cca, 0x3b7cd7532fb686, 0xb7805df3e4409301);
  (0x4d7db09bb18cbb, 0xbf3a9de29b8f9708, 0x239d34da22ddca, 0x57e30f029678c77d);
  (0x538228f0d0dcbe, 0x149b9cc5d433d1cc5, 0x11ce9a6d116ee5, 0x464f3f35452d6c64);
  (0xbf93d05ab7fbd, 0x25d242ca24fa0d99, 0xacd9af4907a8a4, 0x221fcd05c178c10bf);
  (0x372fa8d7ed69e6, 0x8b745f1a88b0db07, 0x3281209381551b, 0x7f9fb30c7d797faa);
  (0x2bbb02c42819d2, 0x5867b11589b374c3, 0x5e3c2357a96eed, 0xbe810d1f87ae414b);
  (0x3a0cd25cdebdeb, 0xbbc3eaeea39ffc8a, 0x206978161bfc9a, 0x68d67e3ae2091149);
  (0x14ec0b28e85fcf, 0x362377ed4771618f, 0xe37bfa55a0962a, 0x24ca543f2b82bcd7b);
  (0x43550429dc5572, 0x8b6270c2a7cfb685, 0x238b5f1d6117769, 0x4994a87e570579af6);
  (0x2378dadbcdda29, 0x757d52a96e4aef2e, 0x426dd7c66c7dba, 0xdc0638309879f573);
  (0x85fca70924c91a, 0x16307a2ee34c8b74d, 0x2015f466ea7137, 0x5504cd72fc2b3399);
  (0x11742f8ed3f9ab, 0x24ff9b34d8e3a99f, 0x13d83720807fd16, 0x2a10faaa790adc4fb);
  (0x463bc17af3f48e, 0xee353b1be2a03589, 0x3532952bc408c5, 0xb46d9c90fe231e1a);
  (0xcab47258d0f920, 0x2260141d507d73bdf, 0x90a5a3725073f, 0x188799346b879aef);
  (0x5c4fdef5437551, 0xc860d2f81383359a, 0x44c1d1047e4cc6, 0x953f9be4e0d0d0ab);
  (0x3ca3ad1762ce64, 0xd29aaac8b7407cfd, 0x25159f269da5d9, 0x80cbec43995641e5);
  (0x4bcc985d3b81fd, 0xd29aaac8b7407cfd, 0x15ecb3e0c4f240, 0x3cea9adabc6b4eeb);
  (0x56c2f24d9dfb1d, 0xc0d9935e7791b6c2, 0x37f0557e121fdf2, 0x7c56a5c8b681c727f);
  (0x56c2f24d9dfb1d, 0x1348f5230bf4f8ad0, 0x1120ec8799dd42, 0x3cea9adabc6b4eeb);
  (0x27193e04e8863e, 0x6f3d9b815a0a5af1, 0x13c8301755c54d7, 0x38484763eef1f1a6d);
  (0xbb946f3e5c8f1a, 0x1aaf38c99fc12a789, 0x59d55432173f7f, 0xcc78559747fdf1a7);
  (0x230c2dc048a2947, 0x7fa297beb5b83a27a, 0x2de7e2f45161c3, 0xa72da4c1b59c822b);
  (0xd3859993cb01ff, 0x2684038a8e445a4ca, 0x900ea98e5f368, 0x1a3b2d2ef91631f1);
  (0xd5c5d43a047ed9, 0x1f23f365d4ed5c105, 0xb41253f1f7042, 0x1a3b2d2ef91631f1);
  (0x1d8705e85e512a, 0x6e1ce2859d707035, 0x39a9e3062ce9cf, 0xd709974181c937f9);
  (0x5de096035af301, 0x11811493621a18ccf, 0x6afad14cfb808, 0x13f28163a2403977);
  (0x5de096035af301, 0xe00dd42b4e1ad70c, 0xf6f3434e6ef8434, 0x24d637507e72a7816f);
  (0x166cb2759647ff, 0x55a1d496fecab0ed, 0x1bef63b9b307706, 0x6aaccccc3720c0773);
  (0x2204f91584b638, 0x67ed5bb6e2e86353, 0x4e1a83366ab1c3, 0xee99f6a518426061);
  (0x2a86375ae5e3c6, 0x67ed5bb6e2e86353, 0x4e1a83366ab1c3, 0xbee1921dad01e6b4);
  (0x1314174c2a1d8ff, 0x4a9a5a04e72bb1cba, 0xe35d9e23deff8, 0x3791281a7e38aed1);
  (0x134ceeb3b3154fd, 0x3c607eeaa75076d25, 0x11c3505acd6bf6, 0x3791281a7e38aed1);
  (0x7b51a8feb12d90, 0x1349e5a857e1a03b7, 0x2c6848e3018de7, 0x6f225034fc715da2);
  (0xe562c6610b523f, 0x1cb3fdffdc7ad1c2a, 0x4b3cb322add94b, 0x96a1857849931873);
  (0xe562c6610b523f, 0x2decc99960c482d10, 0x125997298b3d87, 0x3ac7f245880a12d1);
  (0x34c24bcde0052e, 0x8734217680d93873, 0x3a7e4b0adb88683, 0x95e61e07e2dbbd274);
  (0x2e740ac06bef3f, 0x5f3c44d0411ffdb9, 0x5571b2c2441db4, 0xaf2bfe1cc092732d);
  (0x4ca11519a08a30, 0xfb5c3529c178d7c1, 0x1e2d0a59349af1, 0x62fbc70fbfac0e99);
  (0x5fc95a6008acbc, 0xfb5c3529c178d7c1, 0x31554f9f9cbd7d, 0x817576ae8cd503a1);
  (0x77bbb0f80ad7eb, 0xfb5c3529c178d7c1, 0x31554f9f9cbd7d, 0x67912bbed710cfb4);
  (0x4d7770d220f291, 0x1043494b29223e306, 0x1c332f8ca7cad0, 0x5eb8cc360665c46f);
  (0x1ada1fb6da06d0d, 0x4827ce1718370116a, 0x70ccbe329f2b4, 0x12f1c271347ac0e3);
  (0x1aa1b957c0b73b3, 0x394033360ba8ef3fa, 0x8cffedbf46f61, 0x12f1c271347ac0e3);
  (0x31f5731d05c4b2, 0xabd5fc029f6c89dd, 0x2c0ffa4bc62ce5, 0x978e1389a3d60718);
  (0xf70192fe13d13, 0x2a7ac2975151e97b, 0x6d758698ad2eaa, 0x12d31356ded872a3f);
  (0xd6b5d15300ed46, 0x1d8a5011c47b9201f, 0x13a5550e3aad21, 0x2b3f233fdbc71175);
  (0x6b5ae8a98076a3, 0x17a1d9a7d062db34c, 0x3365647c297612, 0xb505ad1ef9198fbd);
  (0x132ef5104e04125, 0x360d83673083789a3, 0x19b2b23e14bb09, 0x4868aba5fd3d6cb2);
  (0x464f27b1b2e187, 0x9e7cb55c356538fd, 0x3a2e5384b4c5a6, 0x8325f93bbf9079cb);
  (0x509d272d890134, 0x122be9f461147266b, 0x1d1729c25a62d3, 0x68eb2dc9660d2e3c);
  (0xb3769d46a1dc7, 0x205ce7e14edeb72e, 0x598d07248123ba, 0x10261b764c2686f3d);
  (0xad89eb3e812b30, 0x19091e3cea203ddf3, 0x10c78cdeeb3a0b, 0x26bb2e53a0ef002d);
  (0x1a9aedf0b510c1, 0x624211000c1cbee6, 0x51db45165baa3d, 0x12e4fd2ce95e71f0d);
  (0x12ac7ab247d2039, 0x372c2e1efe18be25c, 0xdd015c969a65f, 0x28cf8d294ec2133b);
  (0x4055da72100b47, 0x9810d87d977454ef, 0x1c7138b9b708385, 0x433a34796c7c24a86);
  (0x1e64f64a27f1ec, 0x72f242b3170448c1, 0x42b323b0902591, 0xfc3f3db57530817c);
  (0x25fe33dcb1ee67, 0x72f242b3170448c1, 0x42b323b0902591, 0xc9cc315df75a0130);
  (0x82ddad709298f6, 0x13cbe74110e5e49f1, 0xe5a77e9ef1b95, 0x22bd92aac02249c6);
  (0x597dbbe9efe6f, 0x15a900d01c501ca9, 0x69537e09658083, 0x197e29a36aaf2fa26);
  (0x1e86c451509ef4, 0x5e92b8ee332d766d, 0x9b314f2ec8c18d, 0x1e0cc5254c1d053ea);
  (0x7a1b1145427bd, 0x12ea24fc70a2b149, 0x39154ff57d6930b, 0x8d7a7e312f2b1c6ca);
  (0x26287565a4c6b1, 0x975127e385158a48, 0x549811bc34b865, 0x14f75e1b37632dc97);
  (0x1a8c8e5000ca44, 0x543994593a3e915d, 0x549811bc34b865, 0x10c5e4e292b5be3ac);
  (0x212fb1e400fcd5, 0x543994593a3e915d, 0x4df4ee283485d4, 0xc5d987424a3cff77);
  (0x482a28f81b3fbf, 0x9285132eb2b0da7a, 0xa99c52aa5ce708, 0x1585e9a70fcedd9f1);
  (0x5d5db34d66dca0, 0x12f4e3d9483b0ef8d, 0xca4005d1333c5, 0x29105cdc793cea64);
  (0x3962461cf9f1b3, 0x9521daa8bad3076b, 0x3b52da03c6a215, 0x9a2c62ebc8dde822);
  (0xb007fa248735dd, 0x16dfbb399d6d8ac8c, 0x1e2591fb967d23, 0x3ead76055327bcff);
  (0x2f2b829074a5fd, 0x9ce98f56fa8d7755, 0x228572732943e6, 0x72d60af134e57ae1);
  (0x4f62a0757949f5, 0xd34314989da47493, 0xa11395791733d8, 0x1aca9299f2a00698b);
  (0xc83150904ab0d7, 0x1aa34c30cca83cfc9, 0x1272a47124ff7, 0x27466925f7c99c2);
  (0x966ec6fdfc989f, 0x2006ddfe37f9cd072, 0x1a086f10395c13, 0x58ad836914959a6b);
  (0x242abce6a84233, 0x628eef101a58007a, 0x532a741be38749, 0xe2a27e5a36573513);
  (0x952a7d432ebbdb, 0x145316d6a50af358d, 0x355527db4094ea, 0x7444e8cc81bc52f3);
  (0x114ab05e93771f, 0x3c50d3496c084a0d, 0xed1505db963f03, 0x33af896ea8f23081a);
  (0xc76d20dae90429, 0x22c7f943c8eb6e883, 0x25a7e500ad3ada, 0x691417b24a31eac5);
  (0x221a2b0641f13f7, 0x4c213402b679fbbcb, 0x12d3f280569d6d, 0x2a08097a8413f782);
  (0x177cf61bb62c9c, 0x53e54f371ed412a1, 0x8d1da8b91d6c59, 0x1f80aea425e47e152);
  (0x1d5c33a2a3b7c3, 0x53e54f371ed412a1, 0x815f2dab42560b, 0x171ad021f0be4acce);
  (0x1d7d6aec9361939, 0x4369c746ab07b74f9, 0x1900be8227a792, 0x3927f094c9035209);
  (0x27d3585b919aa6, 0x91aa1542bfed949d, 0x3e81dc456322ed, 0xe49fc253240d4824);
  (0x13e9ac2dc8cd53, 0x3a44088119923b72, 0xe1f6814db6a5f3, 0x2952da26a219a6057);
  (0x476ce175c4437b, 0xa731f262afa9d089, 0x2b4966069c8457, 0x6553c2c0f90ab34a);
  (0x476ce175c4437b, 0x10b831d6ab2a94da8, 0x12204395694a47, 0x43e35f13a2b58995);
  (0x476ce175c4437b, 0xd6027deef5543e20, 0x12280a1f46399e6, 0x3666cb753bab1728d);
  (0x228329b38d7ebf, 0x52ba0c0e010e66d7, 0xdb13c07e9f566b, 0x20d21c783d1175d24);
  (0x16e22db4568793, 0x57c37530e35db35e, 0x33f4a3b25ff181, 0xc743006eaf2d0e4f);
  (0x16e22db4568793, 0x4635f75a4f7e2918, 0x46aa580c0d8fc6, 0xd8d07e45430c9895);
  (0x63c604e93c3781, 0xf4e6146962d8a905, 0x4ce3d734e5afee, 0xbcbae82123408825);
  (0x2156c14af18d963, 0x82ee54048abc273cb, 0x228dfc20ebc3de, 0x87b49cfd94fd2ba3);
  (0x1030a668df20a8, 0x32ddbe5e4af7cad3, 0x5662f6524d69ab, 0x10f6939fb29fa5746);
  (0x62877320f4c229, 0xf7a6070181c3591d, 0x4e4aa31dddd957, 0xc4c848a336cb8e4a);
  (0x3652ed91401b49, 0x6d3b8f46a94c7f69, 0xdd069bce874260, 0x1bc6e4fa4b88ee767);
  (0x893567feb2d42d, 0x1b96e483a4a69bd19, 0xeeb96261b54f, 0x300076a6e252a4e);
  (0x219a4ef5e36d10, 0x567c706566653fa3, 0xacad29b959abdb, 0x1bc6e4fa4b88ee767);
  (0x2a00e2b35c4854, 0x567c706566653fa3, 0xb513bd76d2871f, 0x174d78964db535f73);
  (0x34811b60335a69, 0xacf8e0caccca7f46, 0x35c9185e788446, 0xb1316a29201b59ab);
  (0x27b2d3c7b7ce46, 0x68a0a2595856780b, 0x19c5a876233ee99, 0x43ec744c3aa93fba3);
  (0x13d969e3dbe723, 0x29d9da8a2355c99e, 0x424a8714b4baf33, 0x8bc5551568a28a5b3);
  (0x1cb16e31f14016, 0x60cbd58c161fe8af, 0x468da3415a4399, 0xee02fec5048e6441);
  (0x38cbe4462211dd, 0x99484c6fa8b28083, 0x29dc350f690383, 0x70f8edc725252fa8);
  (0x5175ea9b84d735, 0xafe07bfde3538a0b, 0x29dc350f690383, 0x5a60be38ea842620);
  (0x420ba6a6271bde, 0xe426edf1a8f42009, 0xb07ad24ad8cd5, 0x261a4c4524e39022);
  (0x581266e207a940, 0xf364a60d514f267d, 0xb07ad24ad8cd5, 0x1e7b703750b60ce8);
  (0x160499b881ea50, 0x30adbacf76a96e19, 0x360e6646e512b7c9, 0x7782c0902d6d276cc2);
  (0xdc2e013513272, 0x30adbacf76a96e19, 0x368a402792ed7dcb, 0xc0edb61193da9a59b1);
  (0x226730304afe1d, 0x615b759eed52dc32, 0x1ada79cb33c177f2, 0x4bfe13b401aaf012df);
  (0xac03f0f176f691, 0x1856dd67bb54b70c8, 0x547901d706379b, 0xbf3d4802b4b02127);
  (0x35f25a1fabd583, 0xc368d8b01570703d, 0x32e06cdc414e28, 0xb84a018c68c4f2ad);
  (0x1c8223b18b2e6f, 0x529cacbb1a719252, 0x789ccf7667fe90, 0x15d835b029da81751);
  (0x58d08b6cbf2db7, 0xcde514fd21047e62, 0x3df377e742d07d, 0x8f9e46057ca398ef);
  (0x198fc54bdf5715, 0x5ed031c9fae1fa0b, 0xbc750429027dc1, 0x2bb06b6053b502ea2);
  (0x23f6002c553b94, 0x6ab5903f4d3b80c9, 0x37e2da22b23c41, 0xa5d5a6a95110e69a);
  (0x2cf380376a8a79, 0x6ab5903f4d3b80c9, 0x40e05a2dc78b26, 0x9a026efa837fd23d);
  (0x1a51e5b86c79bcd, 0x63f81074d39f565b7, 0x20702d16e3c593, 0x7b35259535ffdb64);
  (0x308347f9a34d32, 0x9369000b5997adff, 0x103377165b97643, 0x313a6966b8b2ec98e);
  (0x3cd4d3ba45928, 0x93df7212707c7c5, 0x757ae6b473e7d5, 0x11d9408f58c279439);
  (0x260504546b7b9, 0x93df7212707c7c5, 0x757ae6b473e7d5, 0x1c8ecdb2279d8ed28);
  (0x1f26f5e11203c0, 0x60ee26812fc9a74b, 0xce2f27cd1c83a3, 0x2818b3103b26473f9);
  (0x26f0b3595684b0, 0x60ee26812fc9a74b, 0xc6656a54d802b3, 0x1edd952b5eb8e6e85);
  (0x18567017d612ee, 0x60ee26812fc9a74b, 0xcb4380c002d349, 0x3298b58d682729f17);
  (0x77e29471e1f7d7, 0x17df9d43cea73a403, 0x3b0a7c364ac884, 0xbc1d873a8ae0556d);
  (0x5a5d5656bc9395, 0xe655a6e61d9c610a, 0x49cd1b43dd7aa5, 0xbc1d873a8ae0556d);
  (0x5639479204cd59, 0xafd2e595c7244b4f, 0x4184fdba6dee2d, 0x859ac5ea34683fb2);
  (0x2db32d03f54292, 0x951a579a230f71c5, 0x12604dece383b07, 0x3bf4825dfcff40529);
  (0x723ff089e5266d, 0x12a34af34461ee38a, 0x1555b39c39a672, 0x37afb4d3393fa15f);
  (0x1ca8b77d0409037, 0x3bd7c78630f15aced, 0x49203efa1dd00c, 0x98b1b293a4cc223d);
  (0xc0f71a831df6, 0x284b039d414abf3, 0x5b684eb8a5440f, 0x1316365274998447a);
  (0xe575f9aec10f99, 0x2654b7a88674534e7, 0x2d83e995b1da8a, 0x79a6d2042638c5cd);
  (0x675a0271f4112a, 0xdcfcd3cf54dd20cd, 0x1a7d7cf4c18d5d7, 0x38a441f764b08ee01);
  (0x5176c2b081542, 0x116b307eb4ad5333, 0x52bb64979b5577, 0x11b09a4bff8b3499a);
  (0x28bb615840aa1, 0x6f7acff7b7887ae, 0xd2a60c9b4a659b, 0x24086ccff2a9b5eb9);
  (0x37d826c1b7a6b0, 0x7a45d5ff50cacdd3, 0xd2a60c9b4a659b, 0x1cd38a3ff55491894);
  (0x22e7183912c82e, 0x7a45d5ff50cacdd3, 0xf58d24d45d2dc9, 0x35c3a0f97d93fc1f3);
  (0xa66770b186111e, 0x1d25d0f6f414ab501, 0x4f25b422d71cab, 0xddd163709fb5195b);
  (0x47a9501e804d250, 0xa0ab9d3d5d0a7d7e5, 0x512cb63dcd129d, 0xb5fff7a9b357618b);
  (0x2b1f1dc099fcbd, 0x9ab0e326f69fb55a, 0xe07f567acdace7, 0x32558503a48ad60d9);
  (0x42e79d0ed9ea69, 0xc001d713730f6ad7, 0x3402df7865b9f3, 0x9543cfb1f1bed5f4);
  (0x7725ecb3a183b, 0x1118cfc09a203b8e, 0xa389d93f83bde9, 0x177774646990eb7e7);
  (0x1918b666f4c6e2, 0x5c30aa9b85899389, 0xa389d93f83bde9, 0x258bed6d75b4abfd8);
  (0x3ebdc80163f135, 0xb86155370b132712, 0x3ef263d28a49cb, 0xb8fbef926dfe8dd1);
  (0x9d3684b17cf60b, 0x1719b1c213a3caac9, 0x1a4de8932c4b, 0x3dd757c12af5e6);
  (0x6231a23d921e18, 0x1715d44c97911b4e3, 0x13bdd4c1b06583, 0x4a42664e4d484737);
  (0x7abe0accf6a59e, 0x1715d44c97911b4e3, 0x13bdd4c1b06583, 0x3b6851d83dd36c2c);
  (0x522f9db8e0c975, 0xc5db0888c982dadd, 0x3c4c41d5c641ac, 0x91296ff8959ad92f);
  (0x36825b6d47baf, 0xd1f63a80b9aa2b5, 0x4ec778020c4dc6, 0x12f72439936d05513);
  (0xb2f4e0e005ecd5, 0x22773d4bd674e73d1, 0x11fdcb2518d59a, 0x3770b27506523655);
  (0x54fafda6bcc104, 0xd17e31678e7556a9, 0x2cfa7bdcbe1601, 0x6ee164ea0ca46caa);
  (0x33de6003861de3, 0xcc95f46f56ed88cb, 0x365b5d0ce5d362, 0xd6666e5fc5fd2487);
  (0x33de6003861de3, 0xa3ab29f2abf13a3c, 0x2a03044e5c3949, 0x8490d96670048769);
  (0x1c6606ef0d8818, 0x47b020e383f63b0f, 0x7559bd665aecf7, 0x1283c03591bf5c1a5);
  (0x237f88aad0ea1e, 0x47b020e383f63b0f, 0x6e403baa978af1, 0xdea662802f2cf581);
  (0x20000000000000, 0x6765c793fa10079d, 0x74dc7412a54f5b6b5, 0x179994641b6af2f40211);
  (0x8000000000000, 0x14adf4b7320334b9, 0xc90b445d3a8cc9189, 0x207afc462e220660e16e);
  (0x2000000000000, 0x422ca8b0a00a425, 0x8432db5d224bfed7ad, 0x11161634263540510756f);
  (0x400000000000, 0xd3c21bcecceda1, 0x49fe01f11ab7bfa3661, 0xf4d1d88306432111d2f71);
  (0x100000000000, 0x2a5a058fc295ed, 0xa349e2718596be30fe5, 0x1b038aac5fa305feb1cfd0);
  (0x40000000000, 0x878678326eac9, 0x330716c3a5bf1b6f4f79, 0x6c0e2ab1dbb88a9d7355e3);
  (0x8000000000, 0x1b1ae4d6e2ef5, 0x7b1a2591b53b892c8d5d, 0x1a1161519ab60b8c10479bd);
  (0x2000000000, 0x56bc75e2d631, 0x26782bbd88b89addec2d1, 0x684585466b13cfc14d11b0f);
  (0x800000000, 0x1158e460913d, 0xf6da68b70f5386559ce15, 0x2174707f94514c914638f329);
  (0x100000000, 0x3782dace9d9, 0x3513a56384fa4efac10669, 0xb8259dfef6c0ae13403cb335);
  (0x40000000, 0xb1a2bc2ec5, 0x254a944eebbc6d764e5c5200d, 0x67811497ffc5d16622c7e0a17dc);
  (0x10000000, 0x2386f26fc1, 0x19bccd7401ca71a30cd9a041, 0x392614a1d73b36361a78256fd9);
  (0x2000000, 0x71afd498d, 0x1ed7b636385609b4e8402145, 0x6d9334044fb6bff1f0a471418c);
  (0x800000, 0x16bcc41e9, 0xdd9cce92c63744eeeb40a659, 0x275dc55da806335684d8d152894);
  (0x200000, 0x48c27395, 0x6a7c69878f17f5fd94d433fbd, 0xf21f004fb653f42e43cc6f09518);
  (0x40000, 0xe8d4a51, 0xee027e5128b54848667c803eb1, 0x361dfd8028eb0cfc36f03879eab0c);
  (0x10000, 0x2e90edd, 0x4a60c7795cb8a696a006e8c3975, 0xd877f600a3ac33f0dbc0e3e7e4faf);
  (0x4000, 0x9502f9, 0x1d067a16a170a6e26709bc3df49, 0x43946d5db38f5c26983ebb6fffaff);
  (0x800, 0x1dcd65, 0x222eb1cc2a84b12a7fe82254a546d, 0x7f56e09dae9423412d6fa7b541988f3);
  (0x200, 0x5f5e1, 0x25e5eacb0647a96d5fc34ad31021, 0x70f1f75f646cb4a23a4bc3b0094ae1);
  (0x80, 0x1312d, 0x18fb85f9c75407d9cfe784ea09625, 0x3b901daa46c64e3fc3f8c21a64a38f3);
  (0x10, 0x3d09, 0xe092cdd75105b5e4a463ba3524669, 0x358ae0358ae0358ae0358ae0358ab7eb);
  (0x4, 0xc35, 0x462de0534951c8d7735f2a309b6041, 0xd62b80d62b80d62b80d62b80d62b7e5d);
  (0x1, 0x271, 0x15ee561a06e98ec3540dbd2f308e149, 0x358ae0358ae0358ae0358ae0358ae0338);
  (0x1, 0x3e8, 0x3f8cd0c599d9266a5f3372c003f8cd, 0xf83e0f83e0f83e0f83e0f83e0f83e0c7);
  (0x1, 0x320, 0x147ae147ae147ae147ae147ae147ae1, 0x3ffffffffffffffffffffffffffffff1f);
  (0x1, 0x280, 0x1999999999999999999999999999999, 0x3fffffffffffffffffffffffffffffe7f);
  (0x1, 0x400, 0x200000000000000000000000000000, 0x7fffffffffffffffffffffffffffffff);
  (0x5, 0x1000, 0x9fffffffffffffffffffffffffffc, 0x1ffffffffffffffffffffffffffff333);
  (0x19, 0x4000, 0x31ffffffffffffffffffffffffff5, 0x7ffffffffffffffffffffffffffe3d7);
  (0x7d, 0x10000, 0xf9ffffffffffffffffffffffffc5, 0x1ffffffffffffffffffffffffff872b);
  (0x271, 0x80000, 0x1387fffffffffffffffffffffeef, 0x3ffffffffffffffffffffffffc816f);
  (0xc35, 0x200000, 0x61a7ffffffffffffffffffffb76, 0xffffffffffffffffffffffff419e3);
  (0x3d09, 0x800000, 0x1e847ffffffffffffffffffe059, 0x3ffffffffffffffffffffffbd9ec7);
  (0x1312d, 0x4000000, 0x26259fffffffffffffffff3d4f, 0x7ffffffffffffffffffffd72b95b);
  (0x5f5e1, 0x10000000, 0xbebc1fffffffffffffffeea72, 0x1ffffffffffffffffffffd16f1df);
  (0x1dcd65, 0x40000000, 0x3b9ac9fffffffffffffe4e828, 0x7ffffffffffffffffffc5d16393);
  (0x9502f9, 0x200000000, 0x4a817c7fffffffffffa334d6, 0xfffffffffffffffffec129e0b7);
  (0x2e90edd, 0x800000000, 0x174876e7ffffffffff9e4bb9, 0x3ffffffffffffffffef36ec68b);
  (0xe8d4a51, 0x2000000000, 0x746a5287fffffffff2d4f37, 0xffffffffffffffffe30afc14f);
  (0x48c27395, 0x10000000000, 0x9184e729ffffffb8f4df9c, 0x1ffffffffffffff0609bcc043);
  (0x16bcc41e9, 0x40000000000, 0x2d79883d1ffffecb336993, 0x7ffffffffffffc9acebf59a7);
  (0x71afd498d, 0x100000000000, 0xe35fa9319fffd3627670d, 0x1ffffffffffff9b88fbfdebb);
  (0x2386f26fc1, 0x800000000000, 0x11c37937e07e9726d6709, 0x3ffffffffffaebe83265fbf);
  (0xb1a2bc2ec5, 0x2000000000000, 0x58d15e1762717adebdd2, 0xffffffffffd6261a3adff3);
  (0x3782dace9d9, 0x8000000000000, 0x1bc16d674ba50268dcfe, 0x3ffffffff8c46e053ef997);
  (0x1158e460913d, 0x40000000000000, 0x22b1c8c04c09504aeb2, 0x7ffffffce8daf9aa631eb);
  (0x56bc75e2d631, 0x100000000000000, 0xad78eb96f4644fc094, 0x1ffffff761c5652213d2f);
  (0x1b1ae4d6e2ef5, 0x400000000000000, 0x3635c94b5b695119f4, 0x7fffff179f4476d372a3);
  (0x878678326eac9, 0x2000000000000000, 0x43c2f791265272dda, 0xfffefd18640e490b087);
  (0x2a5a058fc295ed, 0x8000000000000000, 0x152b174f38597ddb7, 0x3ffa329e7a6941cf01b);
  (0x2488c80f6d101b, 0x5855a356f7f46cc2, 0x579ca9dfafeec3, 0xd3d52e548405c99f);
  (0x4475353196db44, 0x108d55d224bfed7ad, 0x1fec6d2229cb29, 0x7b7f8afd8c115cdd);
  (0x2488c80f6d101b, 0x711174ea33246240, 0x3109ba6e8f81fa, 0x97c3e83818da756d);
  (0x1e86d2a35a688c, 0x4b949068e63a3ec9, 0x16ecee72f3a0951, 0x38c2c53b76386e122);
  (0x2628874c3102af, 0x972920d1cc747d92, 0xa4532ff1848351, 0x28af54c29cfcb421f);
  (0xfd1aa50d22e780, 0x3221e6cfb9c3fbfb1, 0x3f155452a9c051, 0xc7eb44899aef81d2);
  (0x7ebea777306d4f, 0x141560a8f4833718f, 0x3ee3ff620ac6c2, 0x9f7257dd0bd8dc93);
  (0x18b79a1e48689b8, 0x3221e6cfb9c3fbfb1, 0x1f71ffb1056361, 0x3fc756586b238b6e);
  (0x436c68c81c3f0d, 0xdacd3b0a5fe0a0ca, 0x2ce6cad67f58ec, 0x91b6bbdc7c9ddd53);
  (0x21bf50a73cbc5c, 0x579cf1b73521c8a3, 0x59dfce335beb83, 0xe953ad93b1bfa5f6);
  (0x2a2f24d10beb73, 0x579cf1b73521c8a3, 0x59dfce335beb83, 0xbaa957a95affb7f8);
  (0x53e9b90711eb81, 0x116d944ab56d329af, 0x1dce69dd72000a, 0x630c65f225ddef55);
  (0x1d4f9141e3f0f48, 0x4debe75bbec00b413, 0x316876fae575c3, 0x8359630e90b40d57);
  (0x753e45078fc3d2, 0xf9594abf2f335737, 0xc8dc8d75bc52b, 0x1ab2f6bbe46986ee);
  (0x28d3e7acfef824, 0x8aedfd5ac0f497f5, 0xfc47c4e5e87169, 0x35a772da1fbd8c4e7);
  (0xa34f9eb3fbe09, 0x1bc932abc030eb31, 0x57c4c835b069b8b, 0xeeedd7bec720ff04a);
  (0x3308e1983eb62d, 0x6f24caaf00c3acc4, 0x138cc77a4929e41, 0x2a9371a5f3ca3a1af);
  (0x2bd4dfa2d39441, 0x98bb09b3f5dc0741, 0x240409cb17a99c, 0x7d7f24f438d141db);
  (0x22d3dd300da9da, 0x6115cd2bec862bd5, 0x4fd8e96deb3ddd, 0xde94f22025576db0);
  (0x72acc69df8e7b7, 0xffbbcc3cdb17ae04, 0xdcd8ed2eb5f8b, 0x1ec818f28105ab2d);
  (0x1937cdf2c3620b, 0x59fb148424073456, 0xdfa46dac05ce2e, 0x31dfb7da9124cb539);
  (0x44850264632491, 0xc396baf045456c61, 0x2fcaa195b37f126, 0x886bb2c22f469af95);
  (0x16a770c51c5d7b4, 0x33bb94b8121d32f13, 0x13de005bd620df, 0x2d5e5fc00cbd7d8f);
  (0xec7967e106b740, 0x36004cb4df8d12d1f, 0x13de005bd620df, 0x4896ff99adfbfc18);
  (0x12797c1d9486510, 0x36004cb4df8d12d1f, 0x13de005bd620df, 0x3a1266148b2ffce0);
  (0x1717db24f9a7e54, 0x36004cb4df8d12d1f, 0x13de005bd620df, 0x2e751e76d5bffd80);
  (0xce76b248e1c19, 0x30478e59d853bba6, 0x381eb677de603a, 0xd1f841084329d3d3);
  (0x4acbfd612a992f2, 0xdfe0e87700b910061, 0x1c0f5b3bef301d, 0x53fce6d01add87ee);
  (0x48eb78f5aeb8c, 0xae9bb75870b5711, 0x8c4cc82babf091, 0x14ff39b406b761fb8);
  (0x5b2657331a66f, 0x15d376eb0e16ae22, 0x46b83b07c155ba, 0x10ef1a1b170fa5dfd);
  (0x1487417b8928a6, 0x3eeb4fe7e907f20d, 0xb0cc9393635651, 0x21de34362e1f4bbfa);
  (0x5d881a2893f552, 0xe556c4892296aecd, 0x2a35f673bd0fb3, 0x678024b95086cab3);
  (0xe9d4416571e54d, 0x3955b12248a5abb34, 0x163e80e201c297, 0x57449c658d8740d7);
  (0x1387aecdd964cb, 0x3d4bc245ef219777, 0x9647e205bb9689, 0x1d7a9f6221460324a);
  (0x3dfb9302bea3a0, 0x9ba0f37ff334d4b9, 0x9647e205bb9689, 0x17954c4e8104cf508);
  (0x4d7a77c36e4c88, 0x9ba0f37ff334d4b9, 0xb545ab871ae859, 0x16c1dcbb9a185e5ea);
  (0x306c8ada24efd5, 0x9ba0f37ff334d4b9, 0xa1e70d963f5537, 0x20855b15c3ac11ac6);
  (0x2c442f9830ce67, 0x71d0316d7bf02475, 0x6d52277a2643f4, 0x1191339b75902e585);
  (0x2c442f9830ce67, 0x5b0cf4579659b6c4, 0x88a6b158afd4f1, 0x1191339b75902e585);
  (0x7112cc968c6617, 0x174202e0eef5c9c49, 0xf688a4075a6f, 0x32b5846a2624d4a);
  (0x8d19dd932da901, 0x1737de9340215c007, 0xf688a4075a6f, 0x289136bb51b7108);
  (0x6995c405606825, 0xde6354d676a12969, 0x47febbbfa1dc27, 0x97a3a7c9409007a6);
  (0xd02cd1cf122fd5, 0x2bd8c7257f8f8ff69, 0xdcccde730a58a, 0x2e8186e7756962b5);
  (0x64a3356dbcee88, 0x10f51792818e81f39, 0x228002c1f99dd9, 0x5d030dceead2c56a);
  (0x7dcc02c92c2a2a, 0x10f51792818e81f39, 0x3ba8d01d68d97b, 0x80ac567a5a70a42d);
  (0x15921bb576e250d, 0x4a70185d95995919b, 0x1ea3b4607fbba4, 0x69bba138f5f514b7);
  (0x15921bb576e250d, 0x3b8ce04ade144747c, 0x264ca1789faa8d, 0x69bba138f5f514b7);
  (0x1c0386744986, 0x3ddebc3f215869, 0xbfb72e6806e7cd, 0x1a76a425c561703ae);
  (0xe01c33a24c3, 0x317efcff4de054, 0xefa87a72d72af1, 0x34ee0e477ec017f71);
  (0x77e93fde42cc9d, 0x152fbc092c3f7a692, 0x3bd19b87100a67, 0xa91ae24f636012a1);
  (0x10e8f387cdc4eca4, 0x263e33922869c202fd, 0x2ceeb6d954b5c1, 0x659e2093a177f1d7);
  (0x4553f10fbf292a, 0xfadcf9f17c7aee7d, 0x10adbf0f6a1147, 0x3c5a16c8964ec341);
  (0x4e520dcbf9ead1, 0xe2b8f0d4738ea063, 0x10adbf0f6a1147, 0x3048123a11d89c34);
  (0xcd9142d1f4b1ef1, 0x1dc0fc744db877e18a, 0x17bff336d8ff06, 0x370033cfb447d8eb);
  (0x1035f123a03e8517, 0x3c10f96f5112775d77, 0xbdff99b6c7f83, 0x2c002972f69fe0bc);
  (0x3cf246a781603d6, 0xb4a979b60917862cf, 0x3b5fe0091e7d8f, 0xb000a5cbda7f82f0);
  (0xfa12b517910baf, 0x251075ecd7efe8486, 0x1766558b03b40e, 0x377d9c30f57fc39d);
  (0x2fe4b7cf01f263, 0xb5b889bad6e60aff, 0x9a4945798d26e9, 0x24967843983cb2472);
  (0xfcb97c9ab2df9f, 0x2ff200df45ab12f71, 0x2a6c78321d3f0, 0x80c6168330500b1);
  (0xfabc66f85980ab, 0x260df03eb5d2458bd, 0x3507963ea48ec, 0x80c6168330500b1);
  (0x7b4be79dba52c2, 0x1df0c6e874ab1acb3, 0x42497bce4db27, 0x1018c2d0660a0162);
  (0x189c164c174bf6, 0x4c7e5f87614aba7b, 0x45ef2348a6dfaf, 0xd95fca505abd7a7e);
  (0x93f7dbf2231475, 0x16ff0abb78eb264dd, 0x1cd08c114d9cda, 0x47a6a4384409a54d);
  (0x49359691174a8, 0x1234504a8b693201, 0x513010fd64f171, 0x14303317626f8f936);
  (0x5b82fc355d1d2, 0x1234504a8b693201, 0x4ee66448dc371d, 0xfb20d440b436b35e);
  (0x549e940c3208ef, 0xd777506f6619844c, 0x23290e51edbe31, 0x598757ed27a39025);
  (0x549e940c3208ef, 0xac5f738c51ae0370, 0x411af6e975aff9, 0x849f34d03c0f1101);
  (0x41e762ad7d11d2, 0xd6cc30cdfff09b03, 0x1bac942c0bc1bf, 0x5a32778e8dcc796e);
  (0x2a38e95596395, 0x6e17389c744bb3b, 0x9cd7caf1ac81ce, 0x198f406feaa130455);
  (0x2dced731ca9968, 0x5f8d4ee016f3aa87, 0x4e6be578d640e7, 0xa394cf9910d46822);
  (0x1ca1467f1e9fe1, 0x5f8d4ee016f3aa87, 0x42f82fac639a8d, 0xdf825fce7825959a);
  (0x2474e67b333b95f, 0x6156b14eaea449aa8, 0x39627561125be2, 0x993749424cadaf11);
  (0x6927365e1e3211, 0xe09b16b19657dd17, 0x264eef148fb3a4, 0x51d37bd30303810b);
  (0x263601875935ab, 0x8296c7dc4344303f, 0x5618ac610cd638, 0x1263dbf82494b3255);
  (0x263601875935ab, 0x68789fe3690359cc, 0x91d4d900a94171, 0x18eb65f65b24e8c21);
  (0x5438b82959d372, 0xb836b2f7bfdfdc39, 0x3d9c20d74f6dff, 0x86c199599b922d7b);
  (0x2a54bfe8d501b59, 0x94244d379abf5045a, 0x19ee1f3aff15ee, 0x5abec78897cda4a3);
  (0x2eef1feef256f7, 0x836683fcee8d9e69, 0x40d34e137db6d3, 0xb57d8f112f9b4946);
  (0x33682b78152eee, 0x73236bce6574074d, 0x7d2d909dd895af, 0x1185de2b10bf5b977);
  (0x4c468a3088ae7c, 0x1115724ce2c6b2135, 0x1808a7b4dc67a5, 0x56209a62c3062536);
  (0xe1a9d6367ef99, 0x286f2cd0428c55ea, 0x513d8f5942ea82, 0xe8e7f7fde9decb4b);
  (0xbdd7d13a8a8771, 0x1b3679d1c592f904b, 0xd4215249cc2d4, 0x1e6852df7a8e064b);
  (0x59f320af8a7aa9, 0x14a144bf6fdd0d60f, 0x10929a6dc3f389, 0x3cd0a5bef51c0c96);
  (0xa18e1fcea3538a, 0x1da462519945d2e33, 0x22eabbfe359551, 0x66813f70c5d4325d);
  (0x38cdebd4029397, 0x85685239024d45b0, 0x39d8e5f2c39f8b, 0x87db53ff066783c9);
  (0xca1307062449eb, 0x2f7540883bb00bcbd, 0x1d0dd23d39f144, 0x6d2cdd26d2be75d9);
  (0xd1567b9572c63c, 0x2754c330abfc04829, 0x245146cc886d95, 0x6d2cdd26d2be75d9);
  (0x4459f6fe30f589, 0xa460fd1870e7be96, 0x389e35803c9730, 0x88293bc16d090c67);
  (0x20f7158e0b170b, 0x7ed859327ad02489, 0x2362e17025de7e, 0x88293bc16d090c67);
  (0x195443230f0325, 0x4df862d47a21dde5, 0xbdc840249ab8cf, 0x2483402d4c2999062);
  (0x195443230f0325, 0x3e604f1061b4b184, 0xf38f60f68527cc, 0x257cc1698db06bcc3);
  (0x20e0bbb8d4e2e3, 0x818b9e22f49e39e9, 0x3ce3d83da149f3, 0xefeb3c3d2469184e);
  (0x2ee249fb3b166b, 0x93c9242670695416, 0x2303e3a5ff80d4, 0x6e5f9e1a2fcade65);
  (0x2ee249fb3b166b, 0x763a8351f3877678, 0xb86bba8130a44a, 0x1d10f28100a6141cd);
  (0x1890ff55aedc122, 0x318f508df32c450af, 0x16a9c9a2ae9ddd, 0x2db86d15a0aa10f9);
  (0x40454ee2b5837d, 0xcf7430f22c4ff78a, 0x1885d0a559c8ea, 0x4f279bdd6c80481f);
  (0x26441b9ab133f9, 0x62cfff8d276cd7d7, 0x5332f661fb8c231c, 0xd6d73e3ebf51f87f5b);
  (0xbf548a057603dd, 0x18b3ffe349db35f5c, 0x2c06b71b5d048d, 0x5af30ae076416b27);
  (0xb3677fc6c5b31, 0x250fb3cb5a754d7b, 0x50da2bd5e34461, 0x10b3d3f88ccfca6ba);
  (0x4aa7b6dbf1e546, 0xc567a6b708a67e51, 0x50da2bd5e34461, 0xd5ca993a3d96ebc8);
  (0x2553db6df8f2a3, 0x4ef642af9d0f65ba, 0x127731229a6898a, 0x270fcd92b83d455e1);
  (0xf0403b56396079, 0x32d27a05a4f0b1ed6, 0x8ef7db2ba1b37, 0x1e3e41cf9117fd81);
  (0x4b14128af1ee25d, 0xcb49e81693c2c7b58, 0x3e4bee423cdeec, 0xa8adfa08600705ab);
  (0x4921b318e0072e7, 0x9e69f9d1da353fa02, 0x4ddee9d2cc16a7, 0xa8adfa08600705ab);
  (0x3aa89f249a74e1, 0xcb4d2a2a0d6a8e33, 0x2566d6425db3fd, 0x81a0d346afb8d826);
  (0x45498395b8d553, 0xc01c447c969c542e, 0x2ab7487aece436, 0x766fed9938ea9e21);
  (0xf7f887cd6ca4ae, 0x226086f3616811f57, 0x155ba43d76721b, 0x2f5ff8a3b05dd8da);
  (0x19a827ea4ff80f, 0x5b0e7f96245aaf87, 0x1b8543c195fd34a, 0x61abc3fbd5b89b0ab);
  (0x94914ae5cfe8e9, 0x1a5d0a5da0abb8f91, 0x1448835240109e, 0x3996a7817950d175);
  (0x182a19dbc37d2bd, 0x36e2ee3682b0e0335, 0xa2441a920084f, 0x17090fcd63b9ed62);
  (0x2c869b181af73a, 0xa1d0bd9999933f03, 0x21c7df256c8c909, 0x7ac40a404b7232031);
  (0x80a502b4424a6, 0x17603f3150389495, 0x67463390ff456b, 0x12c413c01e2ede971);
  (0x3daffdfe94d085, 0x8f7a573211648b8f, 0x67463390ff456b, 0xf03430018257edf4);
  (0x149ec631f282be, 0x4cbc8170b725b1e7, 0x838209edaedae3d, 0x1e96546ef32915f21b);
  (0x338cef7cde46db, 0x997902e16e4b63ce, 0x2484ae518f3011, 0x6cb8406ead3b9917);
  (0x117c514e3f2c002, 0x29a544c2f58488e99, 0x160467739b5dbb, 0x347040a99f1aff61);
  (0x3aef117f2f0123, 0xe094b78b3da10656, 0x199379e16ce9c2, 0x6176a6e0dd9b7a59);
  (0xa48ed5685d140, 0x1f5ab2172d4985ed, 0x54828b609beae5, 0x101a2b1f015ca008c);
  (0x2923b55a17450, 0x64556d16f751ac9, 0x1d767203e073869, 0x47db0394b9cd8ff1b);
  (0x52476ab42e8a, 0x141115d164a9ef5, 0x9383a6b612deb71, 0x23fa0c77ffc5b22e6a);
  (0x2923b55a1745, 0x806d586f510c62, 0x170cf8e5b85406c7, 0x47f55a015ca1aefbc9);
  (0xcdb28ac27459, 0x201b561bd443188, 0x5c31f5ea611703e, 0xe63f82510aa58c487);
  (0x4047cb5cc45bd, 0x100dab0dea218c40, 0xb7c9a5ecb056c5, 0x2de62c75ad88cb8ab);
  (0x34fa43b9518fbc, 0xa95a1758d97e4faf, 0x20e3d42c54330b, 0x69236b2130f81eaf);
  (0x4238d4a7a5f3ab, 0xa95a1758d97e4faf, 0x489f86f7515ed8, 0xb9b8ca1ca9abe1f5);
  (0x78b079e122facd, 0xf6ea258b7a32941f, 0x5ac768b525b68e, 0xb9b8ca1ca9abe1f5);
  (0x25a662c3480fc3, 0x7b3e33975116e8ea, 0xcf9939caa34b99, 0x2a78d15339e110a33);
  (0x1328f83b1663233, 0x322cb48caef27f31d, 0x17a9846032c714, 0x3df6e5492228dcb1);
  (0x6147716d731c213, 0xcbcbf74330b26e368, 0x5ea61180cb1c5, 0xc649441d3a1c5bd);
  (0xaba2aa9db50767, 0x23f504cd87bb66381, 0x1d93e5783f78d9, 0x6324a20e9d0e2de8);
  (0xaba2aa9db50767, 0x1cc403d79fc91e934, 0x4fe1897dbc98e9, 0xd634b16d1c32a835);
  (0x12964c4ab6dd78f, 0x27dfbc3f13a5cf4ba, 0x11007c76e030d5, 0x24792af5de679caf);
  (0xbbff0a7a00acd4, 0x2854732ef33a4e0dd, 0x11007c76e030d5, 0x3a5b77efca3f6118);
  (0x2effc29e802b35, 0x810e3d630a542cf9, 0xcd0f2206c6c6e3d, 0x2331362e0de7597684);
  (0x2effc29e802b35, 0x673e97826ea9bd94, 0x10286e7a7e67aa34, 0x237ea51fafba58c4b3);
  (0x756ef40bf55205, 0x19cc08f116440a459, 0x20e5009633ff, 0x739df0accca3ee);
  (0x5da45965d03e8b8, 0x1074df53526121b7e9, 0x1d63f64322e181, 0x52a4090069cf74db);
  (0x15e1da719e6822, 0x313920a61ba58fc5, 0x92f3cf4fae6785, 0x14a902401a73dd36c);
  (0x18abbd7553a04f7, 0x58cb2d152d4426d3a, 0x2200b885b7ccdd, 0x7a616e45d6f79e37);
  (0x272db2eb4cdabb, 0x70ce8f7b97190525, 0xf85f007330b5c7, 0x2cb22d80e8a108326);
  (0x36bc4ba9224cd8e, 0x7e14894393a8128fd, 0x344c5361f8f6c3, 0x787741b6fd64b2cd);
  (0x1bb2e683764234, 0x661595f53b15786d, 0x44b29bf65019cd, 0xfd2fa099d1a8e1da);
  (0x229fa02453d2c1, 0x661595f53b15786d, 0x5978c8d8e8cb74, 0x107cca74164c73023);
  (0x38fdd25a8e059e, 0x866d6637a9d29d2b, 0x36d928b494f8b3, 0x815f4109baf492f8);
  (0xaf6b5d4b848168, 0x29606b4ba7360fd71, 0x6968fe1d37d79, 0x18dd05925c0481c1);
  (0x254447710da2e1, 0x7083b949cd763149, 0xb601ed2d57fee1, 0x22582fb70a5eacc28);
  (0x114de01fb0be1, 0x29cba3345e0d541, 0xb601ed2d57fee1, 0x1b79bfc5a1e557020);
  (0x18c75de961b622, 0x5fc22ddf0ae6c963, 0x2c2665c8dc30df, 0xaa9e8a23e6c6e8be);
  (0x7d77d86fcaf2f1, 0x183e6adab7e5332da, 0xfe15b6a15aae7, 0x3118947b5a216805);
  (0x1374f18c627c8f, 0x301f633eaffc988f, 0xc424725cbb41dd, 0x1e51ea5658871336e);
  (0x12ff124514a2113, 0x4b2c90f8c3aa68f14, 0x1138b3b6f27986, 0x44267f21e4e57b8d);
  (0x8271b183f5f8a2, 0x19cf6ba4965c38a7b, 0x2b0dc1495e2fcf, 0x884cfe43c9caf71a);
  (0x5763f03a97c8d3, 0xdd54966ae32d42b4, 0x1ff8358d0fc98e, 0x50f7d8a910ffa66d);
  (0x23b3eaba07f206, 0x4856aa6f577892ff, 0xbb08460ebf4df5, 0x17af3b0a0286905d7);
  (0x784b1312e59c7f, 0x185f7c038efb181de, 0xf84a420e8dfb8, 0x324e8b3dc8e79af1);
  (0x7469ea0aab6491, 0x12de9b121312c7c1b, 0x1365cd292317a6, 0x324e8b3dc8e79af1);
  (0x3f0e684f9e7832, 0x82d395e66f0cea3b, 0x85159f32a453991, 0x1141e3692fe279677d);
  (0x4a942f33c3f67d, 0xf792a72fed2fedc1, 0x87ba65f843f83, 0x1c290939e1d3cd6a);
  (0xc484f054dcdfd, 0x209e4f1a0e574de7, 0x67d3caf81a4380, 0x113bbb069cf03bb2b);
  (0x5a27273f61809d, 0xbf88dc54547b4839, 0x27a19676bf53c3, 0x5432d4157a8872f2);
  (0x39b4f7d1d94b85, 0xc429805c9ac3c24a, 0x17687ebffb3937, 0x4f92300d343ff8e1);
  (0x11263c88ef0927, 0x2ea2ecec8f67ea2a, 0x6564d43649a5eb, 0x113bbb069cf03bb2b);
  (0x3b45885f9c5789, 0x80f2a555bf5e4222, 0x2ba059154ccaf4f, 0x5ee9338d6b94a6655);
  (0x3b45885f9c5789, 0xce510889323069d0, 0x3a6835737b3f88, 0xcb4ea26c1955c3c7);
  (0x15429d1f4aa2553, 0x3b3401d32718eb651, 0xe9a0d5cdecfe2, 0x28a953af38445a5b);
  (0x9f215ef4adf6c0, 0x16280d977d876791d, 0x248121682d07b5, 0x5152a75e7088b4b6);
  (0x6374db58ecba38, 0x16280d977d876791d, 0x109cf5899748dd, 0x3b3746b2558fd5b7);
  (0x211d7822df143f, 0x5e6db807abbc5246, 0x5b349a0c48d487, 0x1041321702cba26d7);
  (0x211d7822df143f, 0x4b8af99fbc96a838, 0x8ad7daa98258d8, 0x13cbb5ca7fa2b2501);
  (0x43d36ecd3faa75, 0xf78fb475f835825a, 0x12f379dcb1cd12, 0x452ba83201f5a2a7);
  (0xcabaaa43565104, 0x24ff62131f3294ed1, 0x979bcee58e689, 0x1bab101400c8a776);
  (0x32aeaa90d59441, 0x76646d09fd6ea95d, 0x4bd1203aaecd284, 0xb11b20c35c813d533);
  (0xd37e7a4644e5, 0x316784a641e6b02, 0x7e4aeb2cf2d030, 0x1d8067802c3ab6ff3);
  (0x1a68c99e481dda81, 0x4ef708580647233042, 0x1f92bacb3cb40c, 0x5e67b19a27224997);
  (0x860d0072cf2fb248, 0x140a76564ed194a7db3, 0x7e4aeb2cf2d03, 0x12e189eba16d41eb);
  (0x56fd074065a818a5, 0x14ced323e1606b55673, 0x7e4aeb2cf2d03, 0x1e35a97902486978);
  (0x156a677a1736e249, 0x4192095af3ba82530f, 0x2777697e0be10f, 0x78d6a5e40921a5e0);
  (0xc4795c1fec5114, 0x1e14072ca4bf93e63, 0xdbb3564f1437, 0x21a24c5d88d591d);
  (0x12791bd86318dd5, 0x4865e1b2210d1f11c, 0x18fd052f25143e, 0x61ee9ac6bc6fba2b);
  (0x30ea722e1fcc601, 0x995d70ef3f6404d41, 0xc7e8297928a1f, 0x272c3de9182cb0de);
  (0x8850dc6887216d, 0x155e94aee3bc96f5b, 0x3e788cf5dcb29b, 0x9cb0f7a460b2c378);
  (0x590c9b584f858b9b, 0xb2af4650b1565368c7, 0x31b25a5798f502, 0x63b873b6ec18d6f7);
  (0x727c6de01cd626, 0x16f8fa79a5048c8d5, 0x9c173fae18e5f, 0x1f522741601a9307);
  (0x17be617a966e5a, 0x3cfbde9e5003ed5b, 0xbf3d8cc5ee5df7, 0x1eb2fd4bb6081dc3e);
  (0x3b5bf3b27813e1, 0x79f7bd3ca007dab6, 0x658e5ec19cca92, 0xd0abe804369b212b);
  (0xb591381f408a77f, 0x254eaf4ccec37ce31d, 0x32c72f60ce6549, 0xa6efecd02baf4dbc);
  (0x4ed9446aba9e7d, 0xcf609fde031ce155, 0xfde3ece407fa6d, 0x29bbfb340aebd36f0);
  (0x4ed9446aba9e7d, 0xa5e6e64b35b0b444, 0x3d1ac9c22b75f2, 0x809146cc403eed13);
  (0xc12f7e26938e1, 0x28a5b45ba23a18b1, 0x129a697025b5169, 0x3ea098f7c9bb4dc98);
  (0xee54a71cc80428, 0x281dea40ccc7369d9, 0x3b51efe5934d41, 0x9fc29b8a1683ad07);
  (0x3b9529c732010a, 0x805fba68f5b0aec5, 0xf1f8f7a2b98c09d, 0x20957a1ec1ef77aa48);
  (0x1dca94e3990085, 0x66b2fb872af3bf04, 0x1268d65fef34ae8f, 0x3f767b9085686368bf);
  (0x5ff065b34a903, 0x108954e2da99a559, 0x8ef5e216c85996, 0x18a429939d13556b7);
  (0xe26edfd895d867, 0x1f3920c7d259c3d6a, 0x20bdf55817c1e4, 0x483cc97d9f339c01);
  (0x27ba8d8f8a91906, 0x8c3e3abd2e6ed3b45, 0x82f7d5605f079, 0x1ce51d6572e1719a);
  (0x9ad27793274e05, 0x1b53849ce66a2119d, 0x28ed72ae1db25d, 0x73947595cb85c668);
  (0x9ad27793274e05, 0x15dc6a171ebb4dae4, 0xc743174db4b73, 0x1c22cd3950988faf);
  (0x1d5d78cd255aeb, 0x6a25b0b5972ade56, 0x688c29a5019feb, 0x179e96eab3c4d6a93);
  (0x16193c253588457, 0x3fe7897f2c7f77aab, 0x12cbac35f71140, 0x365a59312106e8d9);
  (0x724f8bb501d8dc3, 0x108733ae17a8efe1ad, 0x4b2eb0d7dc450, 0xadedea36d0161c5);
  (0x726bbd3752cb761, 0x1a78720287e94d708b, 0x2efd2e86e9ab2, 0xadedea36d0161c5);
  (0x392a1f5007ab504, 0xa94676e15adeb7fdd, 0x7578f451482bd, 0x15bdbd46da02c38a);
  (0xdd50edfb0a2a84, 0x20c49b1cba79349f1, 0x24b5cc59668db1, 0x56f6f51b680b0e28);
  (0x37543b7ec28aa1, 0xd1b713eb0fd483fa, 0x9c2969ae98ef096, 0x24fe77b6ded0c8a59b);
  (0x7a4b7c74de9358, 0x172d47f57b468a36d, 0x200e30900f8e75, 0x613350fcd680c90e);
  (0x98de5b9216382e, 0x172d47f57b468a36d, 0x3ea10fad47334b, 0x97ed270f02e25b21);
  (0x1141a5a2b4e2ff, 0x42fa3139aea3ed2b, 0x45881ebb2927b1, 0x10ddf85624a788a46);
  (0x26f416ba2c65ab, 0x78f3b24d57226f39, 0x45881ebb2927b1, 0xd7e6044ea1fa0838);
  (0x96e546d32951b6, 0x176d43dcfb0a5e7d7, 0xf4a04007e6103, 0x25fa8733b7897066);
  (0x1dd4738e5254df, 0x768eaa856815e9fd, 0x2d5e53b50984ef, 0xb45084e2d97d1d0e);
  (0x21b6eb980020e3, 0x6b3280e3d0595f01, 0x352343c8651cf7, 0xa8f45b4141c09212);
  (0x21b6eb980020e3, 0x55c200b640477f34, 0x5bb5456c7e7cdf, 0xe945dbc9f1f63179);
  (0x21b6eb980020e3, 0x449b33c500393290, 0x6a34dbe19e13de, 0xd81f0ed8b1e7e4d5);
  (0x2b68acc4679569, 0x8d55628de0f0ea62, 0xf147c2c5088e5c, 0x311939414162a139f);
  (0x45e8159bf49ca4, 0xb615ceea176cfb65, 0x4d3b349e1cb1c5, 0xc929ec6354e9b2be);
  (0x702f3f6c170017, 0xe9c3dcad1a19c05a, 0x18cd2469253c4a, 0x33ae0dc302acc4f5);
  (0x31e4569bc230f9, 0xa657116fad6917e6, 0xff83f3405867bd, 0x353e3e9fc91b27575);
  (0xfe0062b2f50b05, 0x2a5796aa0d1a0f7f9, 0x183908d635cb8, 0x409b6f6095432cb);
  (0xfec22af9a6b961, 0x21f9838164508dab2, 0x1e474b0bc33e6, 0x409b6f6095432cb);
  (0x3d166a4b66e6fc, 0xd08dea5207171aef, 0x41d18e053d68bb, 0xe0b4c62a2c67e61b);
  (0xf459a92d9b9bf, 0x29b5fbaa016b0563, 0x21ee63a221b3419, 0x5cac6dbf4c579e3d6);
  (0xf459a92d9b9bf, 0x215e62ee6788d11c, 0x2aa712f4f586f8f, 0x5d31e74b05f5c181d);
  (0x1781c76c643d7f, 0x522dea1422d217d3, 0x34da3d71dc633c, 0xb8c52d5f1974710d);
  (0x3f257581c987ec, 0xb09b09af91878a17, 0x4210ccce537c0b, 0xb8c52d5f1974710d);
  (0x716ce4efaaa1fc, 0xfdc79082387b46e5, 0x227e120d6eb815, 0x4d2c86d2a6f3bcce);
  (0x1949ccd328a0b4, 0x5a87513f35ed604b, 0x747e51586ca9c7, 0x1a107cfc53b092d7f);
  (0x6527334ca282d, 0x121b103fd795e00f, 0x2790b306070924b, 0x714f7c113a8d3b674);
  (0x1f9c4007f2c8e1, 0x486c40ff5e57803c, 0x803b28dd5be5bd, 0x125cab5aaee8a6aab);
  (0x235682f13f09b6, 0x818a84a8f8c7d1ad, 0x3409b75400cf43, 0xbec27a0008648cd9);
  (0x3485bddeefaeea, 0x9a074d323239b625, 0x4538f241b17477, 0xcb00de44a51d7f15);
  (0xa97c98b935c957, 0x18da1f18491f6b50b, 0x4538f241b17477, 0xa2671836ea7dff44);
  (0x3eaa480ab2b50c, 0xeb3ad94da778b5c7, 0x68eaa36febf6b, 0x189d4d709c8415d9);
  (0x938dcc4f10d6c6, 0x1bb1af84c4442f247, 0x4538f241b17477, 0xcfe01efe9cca3c80);
  (0x49c6e627886b63, 0xb13dfceb4e812db6, 0x3e640468ef0215, 0x95e3429c43d2b46f);
  (0x170e27ec5aa18ef, 0x589efe75a74096db0, 0x11055d520eedaf, 0x416d0cb4b6dd93a1);
  (0x2dc75c29c2665, 0x8cc5f4e4a5f437f, 0x551ad29a4aa46b, 0x105b432d2db764e84);
  (0x6df51a74207d84, 0x10e80922125d59203, 0x291f2e6bd73f03, 0x652987cea06f9e02);
  (0x89726111289ce5, 0x21d0124424bab2406, 0x6d0f3e7678fd1, 0x1ad44f6b78c82e01);
  (0xf23c66d7e0f685, 0x2fac5a90be87e086f, 0x27794f31d7d316, 0x7c4c6a1a8acd8935);
  (0x2677554e8285d12, 0x60e67675053252c4f, 0x13bca798ebe98b, 0x31b82a71045236e2);
  (0x7c4259d4a838f4, 0xfa6ae1bba50b2d67, 0x62af45fc9b8fb7, 0xc6e0a9c41148db88);
  (0x3b626b9bc569fa, 0xbf7b810372d55cbd, 0x248e191247733d, 0x75dec170646ba154);
  (0x1a42c42bb055dd, 0x43bdccd51cbb5d83, 0x5ff084ae0cdd37, 0xf77b685cac33fe74);
  (0xda23cd87ca104b, 0x1c22a17a52a82aebc, 0x4163b2779d9072, 0x86f0e273619352c5);
  (0x5cb8fa25fda409, 0x13227b855fafa6aae, 0x2360220286228a, 0x74cde8bbc5a97033);
  (0x3958d82377817f, 0x977b0c7b5dda61fc, 0x48e49694e36bec, 0xc08b6ef97496a131);
  (0x271fb27e3ea684, 0x52acf3ca66f6faf3, 0x5b1dbc3a1c46e7, 0xc08b6ef97496a131);
  (0x9c7ec9f8fa9a1, 0x2111fb1dc2c9312e, 0x10fcdff5f4d2c96, 0x396fea5ebbee3e213);
  (0x9c7ec9f8fa9a1, 0x1a74c8e49bd42758, 0x14edd88e758a2eb, 0x389c4417970f9ce67);
  (0x30e79f1dce5025, 0x69d323926f509d60, 0x4c6170c22a6982, 0xa547948f1f7f7813);
  (0x4f0f2a7158b05b, 0x111b8ab02f2391a41, 0x20d54502b8a70f, 0x71acfc36998babca);
  (0x4f0f2a7158b05b, 0xdafa2268c1c74834, 0x1546cba710a4bc, 0x3aee739c6919d9bd);
  (0x49bd778794872c, 0xa365379aec670e37, 0xf7d0e52792636f, 0x2251e1a6d2e4f0462);
  (0x5c2cd56979a8f7, 0x146ca6f35d8ce1c6e, 0x28f34c1b4219a6, 0x912eb10d48528385);
  (0x23d997adec4e12, 0x65ae0912e1db8aab, 0xd1ed054dea2a55, 0x253677d533637a70b);
  (0x11eccbd6f62709, 0x28ac03a127249dde, 0x239a08adc30cb6b, 0x50c7d03b94e4ad8c1);
  (0x11eccbd6f62709, 0x41133901d83a9630, 0x15455246d871cfb, 0x4d38c31d7b1179557);
  (0x6b7d47e815780a, 0x1382f42f9c87280db, 0x11dd4cb546b4dd, 0x33e25ef26788281b);
  (0x35bea3f40abc05, 0x7cdfb463e9c766be, 0x40ef018e7f75a85, 0x96def471d33f93cf1);
  (0x35bea3f40abc05, 0xc7cc53d30fa57130, 0x188ddd9bfdced9, 0x5b47f8a79e15f923);
  (0x3d0ad58a0df750, 0xb58abbb189a10c29, 0x92a388b019bd79, 0x1b41bd7e92b53ac6e);
  (0x4c4d8aec917524, 0xb58abbb189a10c29, 0xa1e63e129d3b4d, 0x181320577a496592d);
  (0x6d903322052994, 0x1a114db63d63f4ea3, 0xe2f457a4f5727, 0x35ff6400c2fd3651);
  (0x88f43fea8673f9, 0x1a114db63d63f4ea3, 0xe2f457a4f5727, 0x2b32b66702642b74);
  (0x632b5e91510131, 0xf19bf8c0e67859b1, 0x59c1082cba3cb7, 0xdaab9909f22b2066);
  (0x1c52b80a0cc9fa, 0x6e683687bb91aca7, 0x7613c036c706b1, 0x1cc4791cad8a37a17);
  (0xe2ae6263c0eb7f, 0x2c2e7c817d75cea9f, 0x33f53218e050da, 0xa207c902cabddb1b);
  (0x3064b292c810af, 0x78bb53d38b674f8b, 0xb249afd0f8dad0, 0x1bccae5d920e305c1);
  (0x3d2469e89d9fb, 0xf40f6fb9eb0e35e, 0x6f6e0de29b88c2, 0x1bccae5d920e305c1);
  (0x2196ed6675a929, 0x6b4356595e9b4531, 0x51a9671aafb994, 0x104c6271da10e421b);
  (0xd2c939fc9bac4, 0x21a7d6db2b795d55, 0x6613c0e15ba7f9, 0x104c6271da10e421b);
  (0x34b24e7f26eb1, 0x6bb2af8a24b7911, 0x2229d5a5e350978, 0x45d2375257d773c27);
  (0x1077b887bc2975, 0x35d957c5125bc888, 0x41088663d4327e, 0xd4a86c467bd24a53);
  (0x9a8f0aa47b8656, 0x19452e600e638d5ff, 0x806455516f7e5, 0x14fdf28c116bbea7);
  (0x4d4785523dc32b, 0xa1bac266c27d2266, 0x3ab36ffdd84d52, 0x7ad9464b84160e81);
  (0x17f6e6a9a8ce41, 0x503e7f67338e7c1e, 0xb53759f8c600cb, 0x25ecbc9e7702d4b89);
  (0x4b4276d2448204, 0xc99a74957d3124d3, 0x1eb26c543cfcc3, 0x523aeb8e2c28592e);
  (0x5e131486d5a285, 0xc99a74957d3124d3, 0x31830a08ce1d44, 0x6a1ad3c2d5f6e84f);
  (0x39a2c65d9c802ef, 0xc59f94155b80e140d, 0x419aae06b81c3c, 0xe0f20f8617bb75a5);
  (0x45518f826e93e3, 0xbe252c6b9c6daef0, 0x5201598866234b, 0xe0f20f8617bb75a5);
  (0x193aedaa702e8c3, 0x375dcb00dc73520b2, 0x32bf2817de3da, 0x6f5c7054bdc5af1);
  (0x622542787292d2, 0x15899c9647f13f429, 0x7edde43bab9a1, 0x1bd71c152f716bc4);
  (0x22ba8aa1deb9ac5, 0x618c9a30f47da11ee, 0x4d92e0fc334aee, 0xd9e58411926c8a67);
  (0x5ce1d42860d2096, 0xd0b78ca302220ae43, 0x26c9707e19a577, 0x57289b3a3a91d0f6);
  (0x30da3f38fa43b, 0xafa4c9e2cfe43e6, 0x5f70c741784b8c, 0x157254699d3c821e5)
].
